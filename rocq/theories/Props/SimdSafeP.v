(** * C87: safe calls of the SIMD build that touch memory outside their buffers *)
From Verif.Proofs Require Import BaseL ImageL ImageOps ToneL SimdL.
From Verif.Model Require Import Colorspace Tone.
From Verif.Spec Require Import ImageS ColorS.
From Verif.Props Require Import ImageP HsvP ToneP SatP GrayP.
Open Scope Z_scope.

(** how a call ends *)
Inductive fate := Returns (samples : Z) | Panics | Undefined.
Definition ends (o : outcome (image Z)) (f : fate) : Prop :=
  match f with Returns k => exists out, o = Ret out /\ len (data out) = k | Panics => o = Panic | Undefined => o = UB end.

(** rgb_to_grayscale with AVX2 on a well-formed image with n pixels of c channels *)
Definition gray_fate (has_alpha : bool) (c n : Z) : fate :=
  if has_alpha then
    if c =? 0 then Panics
    else if c =? 1 then if n <? 32 then Returns (n / 2) else if n <? 35 then Panics else Undefined
    else if c =? 2 then if n <? 32 then Returns n else if n mod 32 =? 0 then Panics else Undefined
    else if c =? 3 then if n <? 32 then Returns (3 * n / 2) else if n mod 32 =? 0 then Panics
                        else if n mod 32 <=? 10 then Undefined else Returns (3 * n / 2)
    else Returns (n * c / 2)
  else
    if c =? 0 then Panics
    else if c =? 1 then if n <? 32 then Returns (n / 3) else if n <? 34 then Panics else Undefined
    else if c =? 2 then if n <? 32 then Returns (2 * n / 3) else if (n =? 32) || (n =? 64) || (n =? 96) then Panics
                        else if (48 <=? n) && (n <? 64) then Returns (2 * n / 3) else Undefined
    else Returns (n * c / 3).

(** ** the loops, as far as positions and sizes go *)
Lemma loop_stops (L : Z) (pos : Z -> Z) (c : Z * list Z -> outcome bool) body (x : outcome (Z * list Z)) j :
  0 <= j ->
  (forall k d, 0 <= k < j -> len d = L -> c (pos k, d) = Ret true /\ exists d', body (pos k, d) = Ret (pos (k + 1), d') /\ len d' = L) ->
  (forall d, len d = L -> c (pos j, d) = Ret true /\ body (pos j, d) = x) -> x = Panic \/ x = UB ->
  forall fuel d, j < Z.of_nat fuel -> len d = L -> mwhile fuel c body (pos 0, d) = x.
Proof.
  intros Hj Hs He Hx.
  assert (G : forall m fuel d, 0 <= m <= j -> j - m < Z.of_nat fuel -> len d = L -> mwhile fuel c body (pos m, d) = x).
  { intros m fuel. revert m. induction fuel as [|fuel IH]; intros m d Hm Hf Hd; [lia|].
    rewrite mwhile_S. destruct (Z.eq_dec m j) as [->|Hne].
    - destruct (He d Hd) as [-> ->]. rewrite bind_Ret. destruct Hx as [-> | ->]; reflexivity.
    - destruct (Hs m d ltac:(lia) Hd) as [-> (d' & -> & Hd')]. rewrite !bind_Ret. apply IH; [lia|lia|exact Hd']. }
  intros fuel d Hf Hd. apply G; try assumption; lia.
Qed.
Lemma loop_ends (L : Z) (pos : Z -> Z) (c : Z * list Z -> outcome bool) body K :
  0 <= K ->
  (forall k d, 0 <= k < K -> len d = L -> c (pos k, d) = Ret true /\ exists d', body (pos k, d) = Ret (pos (k + 1), d') /\ len d' = L) ->
  (forall d, c (pos K, d) = Ret false) ->
  forall fuel d, K < Z.of_nat fuel -> len d = L -> exists d', mwhile fuel c body (pos 0, d) = Ret (pos K, d') /\ len d' = L.
Proof.
  intros Hj Hs He.
  assert (G : forall m fuel d, 0 <= m <= K -> K - m < Z.of_nat fuel -> len d = L -> exists d', mwhile fuel c body (pos m, d) = Ret (pos K, d') /\ len d' = L).
  { intros m fuel. revert m. induction fuel as [|fuel IH]; intros m d Hm Hf Hd; [lia|].
    rewrite mwhile_S. destruct (Z.eq_dec m K) as [->|Hne].
    - rewrite He, bind_Ret. exists d. split; [reflexivity|exact Hd].
    - destruct (Hs m d ltac:(lia) Hd) as [-> (d' & -> & Hd')]. rewrite !bind_Ret. apply IH; [lia|lia|exact Hd']. }
  intros fuel d Hf Hd. apply G; try assumption; lia.
Qed.

Lemma deinterleave_panic p (img : image Z) o c : 0 < channels (info_of img) <= 255 -> 0 <= o -> 0 <= c <= 3 ->
  o <= u32_max -> len (data img) <= o + 31 * channels (info_of img) + c -> deinterleave p img o c = Panic.
Proof.
  intros HC Ho Hc Hb Hl. unfold u32_max in Hb. unfold deinterleave. set (C := channels (info_of img)) in *.
  rewrite imul_ok by ity_lia. rewrite bind_Ret, iadd_ok by ity_lia. rewrite bind_Ret, zrange_step_32 by lia. rewrite bind_Ret.
  rewrite mmap_map. apply mmap_panic with (a := 31).
  - apply in_zrange. lia.
  - rewrite iadd_ok by ity_lia. rewrite bind_Ret. unfold vget. replace ((0 <=? o + 31 * C + c) && (o + 31 * C + c <? len (data img))) with false by lia. reflexivity.
  - intros j Hj. apply in_zrange in Hj. assert (0 <= j * C <= 31 * C) by nia. rewrite iadd_ok by ity_lia. rewrite bind_Ret.
    unfold vget. destruct (_ && _); [|right; reflexivity]. destruct (nth_error _ _) as [v|]; [left; exists v; reflexivity|right; reflexivity].
Qed.
Lemma len_avg a b c : len a = 32 -> len b = 32 -> len c = 32 -> len (avg_epu8 (avg_epu8 a b) c) = 32.
Proof. unfold len, avg_epu8. intros. rewrite !map2_length. lia. Qed.
Lemma len_deint p (img : image Z) o c r : 0 < channels (info_of img) <= 255 -> 0 <= o <= u32_max -> deinterleave p img o c = Ret r -> len r = 32.
Proof.
  intros HC Ho H. unfold u32_max in Ho. unfold deinterleave in H. rewrite imul_ok in H by ity_lia. rewrite bind_Ret, iadd_ok in H by ity_lia.
  rewrite bind_Ret, zrange_step_32, bind_Ret in H by lia. apply mmap_length in H. unfold len. rewrite H, map_length, zrange_length. reflexivity.
Qed.
Lemma len_interleave a : forall b, len (interleave a b) = 2 * Z.min (len a) (len b).
Proof.
  unfold interleave, len. induction a as [|x a IH]; intros [|y b]; cbn [map2 concat length app]; try lia. rewrite Nat2Z.inj_succ, Nat2Z.inj_succ, IH. lia.
Qed.
Lemma len_bytes a i n : Z.of_nat i + Z.of_nat n <= len a -> len (bytes a i n) = Z.of_nat n.
Proof. unfold bytes, len. intros. rewrite firstn_length, skipn_length. lia. Qed.
Lemma len_unpack a b : len a = 32 -> len b = 32 -> len (unpacklo_epi8 a b) = 32 /\ len (unpackhi_epi8 a b) = 32.
Proof.
  intros Ha Hb. unfold unpacklo_epi8, unpackhi_epi8. rewrite !len_app, !len_interleave, !len_bytes by (cbn; lia). split; reflexivity.
Qed.
Lemma store_len d i r : 0 <= i -> if i + len r <=? len d then exists d', store d i r = Ret d' /\ len d' = len d else store d i r = UB.
Proof.
  intros Hi. destruct (Z.leb_spec (i + len r) (len d)).
  - destruct (store_ok d i r Hi H) as (d' & E & Hl & _). exists d'. split; [exact E|]. unfold len in *. lia.
  - unfold store. replace ((0 <=? i) && (i + len r <=? len d)) with false by lia. reflexivity.
Qed.
Lemma storeu2_len d i r : 0 <= i -> len r = 32 ->
  if i + 48 <=? len d then exists d', storeu2 d (i + 32) i r = Ret d' /\ len d' = len d else storeu2 d (i + 32) i r = UB.
Proof.
  intros Hi Hr. unfold storeu2. pose proof (store_len d i (bytes r 0 16) Hi) as S1. rewrite len_bytes in S1 by (cbn; lia). change (Z.of_nat 16) with 16 in S1.
  destruct (Z.leb_spec (i + 16) (len d)).
  - destruct S1 as (d1 & -> & L1). rewrite bind_Ret. pose proof (store_len d1 (i + 32) (bytes r 16 16) ltac:(lia)) as S2. rewrite len_bytes in S2 by (cbn; lia). change (Z.of_nat 16) with 16 in S2.
    replace (i + 32 + 16) with (i + 48) in S2 by ring. rewrite L1 in S2. exact S2.
  - rewrite S1. replace (i + 48 <=? len d) with false by lia. reflexivity.
Qed.

Section Gray.
  Context (p : profile) (img : image Z) (Hwf : wf img).
  Notation C := (channels (info_of img)).
  Notation n := (width (info_of img) * height (info_of img)).
  Context (HC : 0 < C).

  Lemma sizes : 0 <= n /\ n <= n * C /\ n * C <= 4294967295 /\ C <= 255 /\ len (data img) = n * C.
  Proof using Hwf HC. pose proof (n_nonneg img Hwf). pose proof (nC_max img Hwf) as M. unfold u32_max in M. pose proof (wf_c _ Hwf). rewrite (wf_data _ Hwf). nia. Qed.

  (** reading channel c of 32 pixels from pixel 32k on *)
  Lemma read k c : 0 <= k -> 32 * (k + 1) <= n -> 0 <= c <= 3 ->
    if 32 * C * (k + 1) - C + c <? n * C then exists r, deinterleave p img (32 * C * k) c = Ret r /\ len r = 32 else deinterleave p img (32 * C * k) c = Panic.
  Proof using Hwf HC.
    intros Hk Hn Hc. destruct sizes as (S1 & S2 & S3 & S4 & S5).
    assert (B : 32 * C * (k + 1) <= n * C) by nia. assert (B0 : 0 <= 32 * C * k) by nia.
    destruct (Z.ltb_spec (32 * C * (k + 1) - C + c) (n * C)) as [L|L].
    - eexists. split; [apply deinterleave_ok; try lia; rewrite S5; unfold u32_max; lia|]. rewrite len_map, len_zrange; lia.
    - apply deinterleave_panic; try lia; unfold u32_max; lia.
  Qed.
  Definition body3 : Z * list Z -> outcome (Z * list Z) := fun '(i, d) =>
        let! r := deinterleave p img i 0 in
        let! g := deinterleave p img i 1 in
        let! b := deinterleave p img i 2 in
        let avg_rgb := avg_epu8 (avg_epu8 r g) b in
        let! o := idiv USIZE i C in
        let! d := store d o avg_rgb in
        let! i := iadd p USIZE i (32 * C) in
        Ret (i, d).
  Lemma body3_fate k d : 0 <= k -> 32 * (k + 1) <= n ->
    if 32 * C * (k + 1) - C + 2 <? n * C
    then if 32 * (k + 1) <=? len d then exists d', body3 (32 * C * k, d) = Ret (32 * C * (k + 1), d') /\ len d' = len d else body3 (32 * C * k, d) = UB
    else body3 (32 * C * k, d) = Panic.
  Proof using Hwf HC.
    intros Hk Hn. destruct sizes as (S1 & S2 & S3 & S4 & S5). unfold body3.
    assert (B : 32 * C * (k + 1) <= n * C) by nia. assert (B0 : 0 <= 32 * C * k) by nia.
    pose proof (read k 0 Hk Hn ltac:(lia)) as R0. pose proof (read k 1 Hk Hn ltac:(lia)) as R1. pose proof (read k 2 Hk Hn ltac:(lia)) as R2.
    replace (32 * C * (k + 1) - C + 0 <? n * C) with true in R0 by lia. destruct R0 as (r & -> & Lr). rewrite bind_Ret.
    destruct (Z.ltb_spec (32 * C * (k + 1) - C + 1) (n * C)) as [L1|L1].
    2:{ rewrite R1. replace (32 * C * (k + 1) - C + 2 <? n * C) with false by lia. reflexivity. }
    destruct R1 as (g & -> & Lg). rewrite bind_Ret.
    destruct (Z.ltb_spec (32 * C * (k + 1) - C + 2) (n * C)) as [L2|L2]; [|rewrite R2; reflexivity].
    destruct R2 as (b & -> & Lb). rewrite bind_Ret. cbv zeta. rewrite idiv_ok by ity_lia. rewrite bind_Ret.
    replace (32 * C * k / C) with (32 * k) by (replace (32 * C * k) with (32 * k * C) by ring; rewrite Z.div_mul; lia).
    pose proof (store_len d (32 * k) (avg_epu8 (avg_epu8 r g) b) ltac:(lia)) as St. rewrite len_avg in St by assumption.
    replace (32 * k + 32) with (32 * (k + 1)) in St by ring. destruct (Z.leb_spec (32 * (k + 1)) (len d)) as [L|L].
    - destruct St as (d' & -> & Ld). rewrite bind_Ret, iadd_ok by ity_lia. rewrite bind_Ret. exists d'. split; [|exact Ld]. do 2 f_equal. ring.
    - rewrite St. reflexivity.
  Qed.
  Definition body4 : Z * list Z -> outcome (Z * list Z) := fun '(i, d) =>
        let! r := deinterleave p img i 0 in
        let! g := deinterleave p img i 1 in
        let! b := deinterleave p img i 2 in
        let! a := deinterleave p img i 3 in
        let avg_rgb := avg_epu8 (avg_epu8 r g) b in
        let unpacked_lo := unpacklo_epi8 avg_rgb a in
        let unpacked_hi := unpackhi_epi8 avg_rgb a in
        let! d := storeu2 d (i / 2 + 32) (i / 2) unpacked_lo in
        let! d := storeu2 d (i / 2 + 48) (i / 2 + 16) unpacked_hi in
        let! i := iadd p USIZE i (32 * C) in
        Ret (i, d).
  Lemma body4_fate k d : 0 <= k -> 32 * (k + 1) <= n ->
    if 32 * C * (k + 1) - C + 3 <? n * C
    then if 16 * C * k + 64 <=? len d then exists d', body4 (32 * C * k, d) = Ret (32 * C * (k + 1), d') /\ len d' = len d else body4 (32 * C * k, d) = UB
    else body4 (32 * C * k, d) = Panic.
  Proof using Hwf HC.
    intros Hk Hn. destruct sizes as (S1 & S2 & S3 & S4 & S5). unfold body4.
    assert (B : 32 * C * (k + 1) <= n * C) by nia. assert (B0 : 0 <= 16 * C * k) by nia.
    pose proof (read k 0 Hk Hn ltac:(lia)) as R0. pose proof (read k 1 Hk Hn ltac:(lia)) as R1. pose proof (read k 2 Hk Hn ltac:(lia)) as R2. pose proof (read k 3 Hk Hn ltac:(lia)) as R3.
    replace (32 * C * (k + 1) - C + 0 <? n * C) with true in R0 by lia. destruct R0 as (r & -> & Lr). rewrite bind_Ret.
    destruct (Z.ltb_spec (32 * C * (k + 1) - C + 1) (n * C)) as [L1|L1].
    2:{ rewrite R1. replace (32 * C * (k + 1) - C + 3 <? n * C) with false by lia. reflexivity. }
    destruct R1 as (g & -> & Lg). rewrite bind_Ret.
    destruct (Z.ltb_spec (32 * C * (k + 1) - C + 2) (n * C)) as [L2|L2].
    2:{ rewrite R2. replace (32 * C * (k + 1) - C + 3 <? n * C) with false by lia. reflexivity. }
    destruct R2 as (b & -> & Lb). rewrite bind_Ret.
    destruct (Z.ltb_spec (32 * C * (k + 1) - C + 3) (n * C)) as [L3|L3]; [|rewrite R3; reflexivity].
    destruct R3 as (a & -> & La). rewrite bind_Ret. cbv zeta.
    replace (32 * C * k / 2) with (16 * C * k) by (replace (32 * C * k) with (16 * C * k * 2) by ring; rewrite Z.div_mul; lia).
    pose proof (len_avg r g b Lr Lg Lb) as Lav. destruct (len_unpack _ a Lav La) as [U1 U2].
    pose proof (storeu2_len d (16 * C * k) _ B0 U1) as St1.
    destruct (Z.leb_spec (16 * C * k + 48) (len d)) as [L|L].
    2:{ rewrite St1. replace (16 * C * k + 64 <=? len d) with false by lia. reflexivity. }
    destruct St1 as (d1 & -> & Ld1). rewrite bind_Ret.
    pose proof (storeu2_len d1 (16 * C * k + 16) _ ltac:(lia) U2) as St2. replace (16 * C * k + 16 + 32) with (16 * C * k + 48) in St2 by ring.
    replace (16 * C * k + 16 + 48) with (16 * C * k + 64) in St2 by ring. rewrite Ld1 in St2.
    destruct (Z.leb_spec (16 * C * k + 64) (len d)) as [L'|L'].
    - destruct St2 as (d' & -> & Ld). rewrite bind_Ret, iadd_ok by ity_lia. rewrite bind_Ret. exists d'. split; [|exact Ld]. do 2 f_equal. ring.
    - rewrite St2. reflexivity.
  Qed.

  (** the loop of either version: chunk k is read and stored if [rd k] and [st k], for n/32 chunks *)
  Lemma gray_loop (body : Z * list Z -> outcome (Z * list Z)) (L c : Z) (f : Z -> Z) :
    (forall k d, 0 <= k -> 32 * (k + 1) <= n -> len d = L ->
      if 32 * C * (k + 1) - C + c <? n * C then if f k <=? L then exists d', body (32 * C * k, d) = Ret (32 * C * (k + 1), d') /\ len d' = L else body (32 * C * k, d) = UB
      else body (32 * C * k, d) = Panic) ->
    let run := mwhile (Datatypes.S (Z.to_nat (n * C))) (fun '(i, _) => let! e := iadd p USIZE i (32 * C) in Ret (e <=? n * C)) body (0, repeat 0 (Z.to_nat L)) in
    0 <= L ->
    (forall k, 0 <= k -> 32 * (k + 1) <= n -> 32 * C * (k + 1) - C + c < n * C /\ f k <= L) /\ (exists d', run = Ret (32 * C * (n / 32), d') /\ len d' = L)
    \/ (exists k, 0 <= k /\ 32 * (k + 1) <= n /\ (forall j, 0 <= j < k -> 32 * C * (j + 1) - C + c < n * C /\ f j <= L)
          /\ (n * C <= 32 * C * (k + 1) - C + c /\ run = Panic \/ 32 * C * (k + 1) - C + c < n * C /\ L < f k /\ run = UB)).
  Proof using Hwf HC.
    intros HB run HL. destruct sizes as (S1 & S2 & S3 & S4 & S5).
    pose proof (Z.div_mod n 32) as Dm. pose proof (Z.mod_pos_bound n 32) as Mb. set (K := n / 32) in *.
    assert (HK : 0 <= K) by (apply Z.div_pos; lia).
    assert (P0 : 32 * C * 0 = 0) by ring. assert (HKN : K <= n * C) by lia.
    assert (LR : len (repeat 0 (Z.to_nat L)) = L) by (rewrite len_repeat; lia).
    assert (Cnd : forall k (d : list Z), 0 <= k < K -> (let! e := iadd p USIZE (32 * C * k) (32 * C) in Ret (e <=? n * C)) = Ret true).
    { intros k d Hk. assert (32 * C * (k + 1) <= n * C) by nia. assert (0 <= 32 * C * k) by nia. rewrite iadd_ok by ity_lia. rewrite bind_Ret. f_equal. lia. }
    assert (Fin : forall d : list Z, (let! e := iadd p USIZE (32 * C * K) (32 * C) in Ret (e <=? n * C)) = Ret false).
    { intros d. assert (32 * C * K <= n * C) by nia. assert (n * C < 32 * C * (K + 1)) by nia. assert (0 <= 32 * C * K) by nia. rewrite iadd_ok by ity_lia. rewrite bind_Ret. f_equal. lia. }
    (* the first chunk that fails *)
    assert (Dec : forall m, 0 <= m <= K -> (forall j, 0 <= j < m -> 32 * C * (j + 1) - C + c < n * C /\ f j <= L)
              \/ exists k, 0 <= k < m /\ (forall j, 0 <= j < k -> 32 * C * (j + 1) - C + c < n * C /\ f j <= L) /\ (n * C <= 32 * C * (k + 1) - C + c \/ 32 * C * (k + 1) - C + c < n * C /\ L < f k)).
    { intros m [Hm0 Hm]. revert Hm. pattern m. apply natlike_ind; [left; lia| |exact Hm0]. intros x Hx IH Hle. unfold Z.succ in *.
      destruct (IH ltac:(lia)) as [A|(k & Hk & A & B)]; [|right; exists k; split; [lia|split; assumption]].
      destruct (Z_lt_le_dec (32 * C * (x + 1) - C + c) (n * C)) as [L1|L1]; [destruct (Z_le_gt_dec (f x) L) as [L2|L2]|].
      - left. intros j Hj. destruct (Z.eq_dec j x) as [->|]; [split; assumption|apply A; lia].
      - right. exists x. split; [lia|]. split; [exact A|]. right. lia.
      - right. exists x. split; [lia|]. split; [exact A|]. left. exact L1. }
    assert (Step : forall k d, 0 <= k < K -> 32 * C * (k + 1) - C + c < n * C /\ f k <= L -> len d = L ->
        exists d', body (32 * C * k, d) = Ret (32 * C * (k + 1), d') /\ len d' = L).
    { intros k d Hk [H1 H2] Hd. pose proof (HB k d ltac:(lia) ltac:(lia) Hd) as H. replace (32 * C * (k + 1) - C + c <? n * C) with true in H by lia. replace (f k <=? L) with true in H by lia. exact H. }
    destruct (Dec K ltac:(lia)) as [A|(k & Hk & A & B)].
    - left. split; [intros k Hk Hk'; apply A; lia|].
      unfold run. set (zz := repeat 0 (Z.to_nat L)) in *. rewrite <- P0. apply (loop_ends L (fun k => 32 * C * k)); auto; lia.
    - right. exists k. split; [lia|]. split; [lia|]. split; [exact A|].
      pose proof (fun d => HB k d ltac:(lia) ltac:(lia)) as H.
      destruct B as [B|[B1 B2]].
      + left. split; [exact B|]. unfold run. set (zz := repeat 0 (Z.to_nat L)) in *. rewrite <- P0. apply (loop_stops L (fun k => 32 * C * k)) with (j := k); auto; try lia.
        * intros j d Hj Hd. split; [apply Cnd; [exact d|lia]|]. apply Step; auto. lia.
        * intros d Hd. split; [apply Cnd; auto|]. specialize (H d Hd). replace (32 * C * (k + 1) - C + c <? n * C) with false in H by lia. exact H.
      + right. split; [exact B1|]. split; [exact B2|]. unfold run. set (zz := repeat 0 (Z.to_nat L)) in *. rewrite <- P0. apply (loop_stops L (fun k => 32 * C * k)) with (j := k); auto; try lia.
        * intros j d Hj Hd. split; [apply Cnd; [exact d|lia]|]. apply Step; auto. lia.
        * intros d Hd. split; [apply Cnd; auto|]. specialize (H d Hd). replace (32 * C * (k + 1) - C + c <? n * C) with true in H by lia. replace (f k <=? L) with false in H by lia. exact H.
  Qed.
End Gray.

Theorem C87_grayscale p (img : image Z) : wf img ->
  ends (rgb_to_grayscale p true img) (gray_fate (alpha (info_of img)) (channels (info_of img)) (width (info_of img) * height (info_of img))).
Proof.
  intros Hwf. set (n := width (info_of img) * height (info_of img)). set (C := channels (info_of img)).
  pose proof (n_nonneg img Hwf) as Hn. fold n in Hn.
  destruct (Z.eq_dec C 0) as [H0|HC0].
  { assert (E : rgb_to_grayscale p true img = Panic).
    { unfold rgb_to_grayscale, avg_checked_256_u8, avg_256_u8, avg_alpha_256_u8. fold C. rewrite H0.
      rewrite imul_ok by ity_lia. rewrite bind_Ret, full_size_ok by exact Hwf. fold n. fold C. rewrite H0, Z.mul_0_r. change (32 * 0) with 0. rewrite !bind_Ret.
      assert (D : deinterleave p img 0 0 = Panic) by (unfold deinterleave; fold C; rewrite H0; destruct p; vm_compute; reflexivity).
      rewrite !mwhile_S. rewrite iadd_ok by ity_lia. rewrite !bind_Ret. change (0 + 0 <=? 0) with true. cbv beta iota. rewrite D. destruct (alpha (info_of img)); reflexivity. }
    rewrite E. unfold gray_fate. rewrite H0. destruct (alpha (info_of img)); reflexivity. }
  pose proof (wf_c _ Hwf) as Hc. fold C in Hc. assert (HC : 0 < C) by lia.
  destruct (sizes img Hwf HC) as (S1 & S2 & S3 & S4 & S5). fold n in S1, S2, S3, S4, S5. fold C in S2, S3, S4, S5.
  pose proof (Z.div_mod n 32 ltac:(lia)) as Dm. pose proof (Z.mod_pos_bound n 32 ltac:(lia)) as Mb.
  assert (Last : 32 <= n -> 0 <= n / 32 - 1 /\ 32 * (n / 32 - 1 + 1) <= n) by lia.
  unfold rgb_to_grayscale, avg_checked_256_u8. destruct (alpha (info_of img)) eqn:Ha.
  - unfold avg_alpha_256_u8. rewrite Ha. fold C. rewrite imul_ok by ity_lia. rewrite bind_Ret, full_size_ok by exact Hwf. fold n. fold C. rewrite bind_Ret.
    pose proof (Z.div_mod (n * C) 2 ltac:(lia)) as D2. pose proof (Z.mod_pos_bound (n * C) 2 ltac:(lia)) as M2.
    destruct (gray_loop p img Hwf HC (body4 p img) (n * C / 2) 3 (fun k => 16 * C * k + 64)) as [[G (d' & E & Ld)]|(k & Hk & Hkn & Hj & F)].
    { fold C. fold n. intros k d Hk Hkn Hd. pose proof (body4_fate p img Hwf HC k d Hk Hkn) as B. fold C in B. fold n in B. rewrite Hd in B. exact B. }
    { lia. }
    + fold n in E, Ld, G. fold C in E, Ld, G. unfold body4 in E. fold C in E. rewrite E, bind_Ret.
      replace (n * C <? 32 * C * (n / 32)) with false by nia. rewrite bind_Ret. unfold gray_fate. fold n C.
      assert (R : exists out, Ret (from_vec (width (info_of img)) (height (info_of img)) 2 true d') = Ret out /\ len (data out) = n * C / 2) by (eexists; split; [reflexivity|exact Ld]).
      replace (C =? 0) with false by lia.
      destruct (Z.eqb_spec C 1) as [E1|N1]; [|destruct (Z.eqb_spec C 2) as [E2|N2]; [|destruct (Z.eqb_spec C 3) as [E3|N3]]].
      * rewrite E1 in *. destruct (Z.ltb_spec n 32); [rewrite Z.mul_1_r in R; exact R|]. exfalso. destruct (Last ltac:(lia)) as [L1 L2]. destruct (G _ L1 L2) as [A B]. lia.
      * rewrite E2 in *. destruct (Z.ltb_spec n 32); [rewrite Z.div_mul in R by lia; exact R|]. exfalso. destruct (Last ltac:(lia)) as [L1 L2]. destruct (G _ L1 L2) as [A B]. lia.
      * rewrite E3 in *. rewrite (Z.mul_comm n 3) in *. destruct (Z.ltb_spec n 32); [exact R|]. destruct (Last ltac:(lia)) as [L1 L2]. destruct (G _ L1 L2) as [A B].
        replace (n mod 32 =? 0) with false by lia. replace (n mod 32 <=? 10) with false by lia. exact R.
      * exact R.
    + fold n in Hkn, Hj, F. fold C in Hj, F. unfold body4 in F. fold C in F. unfold gray_fate. fold n C. replace (C =? 0) with false by lia.
      assert (X : 4 <= C -> False).
      { intros H4. assert (32 * C * (k + 1) <= n * C) by nia. assert (16 * C * k + 64 <= 16 * C * (k + 1)) by nia. destruct F as [[F _]|[F1 [F2 _]]]; lia. }
      destruct (Z.eqb_spec C 1) as [E1|N1]; [|destruct (Z.eqb_spec C 2) as [E2|N2]; [|destruct (Z.eqb_spec C 3) as [E3|N3]]].
      * rewrite E1 in *. replace (n <? 32) with false by lia. destruct F as [[F ->]|[F1 [F2 ->]]].
        -- assert (k = 0). { destruct (Z.eq_dec k 0); [assumption|]. pose proof (Hj (k - 1) ltac:(lia)). lia. } replace (n <? 35) with true by lia. reflexivity.
        -- replace (n <? 35) with false by lia. reflexivity.
      * rewrite E2 in *. replace (n <? 32) with false by lia. destruct F as [[F ->]|[F1 [F2 ->]]].
        -- replace (n mod 32 =? 0) with true; [reflexivity|]. assert (Hx : n = (k + 1) * 32) by lia. rewrite Hx, Z.mod_mul by lia. reflexivity.
        -- destruct (Z.eqb_spec (n mod 32) 0) as [Z0|]; [|reflexivity]. exfalso. lia.
      * rewrite E3 in *. replace (n <? 32) with false by lia. destruct F as [[F ->]|[F1 [F2 ->]]].
        -- replace (n mod 32 =? 0) with true; [reflexivity|]. assert (Hx : n = (k + 1) * 32) by lia. rewrite Hx, Z.mod_mul by lia. reflexivity.
        -- destruct (Z.eqb_spec (n mod 32) 0) as [Z0|]; [exfalso; lia|]. replace (n mod 32 <=? 10) with true by lia. reflexivity.
      * destruct X. lia.
  - unfold avg_256_u8. rewrite Ha. fold C. rewrite imul_ok by ity_lia. rewrite bind_Ret, full_size_ok by exact Hwf. fold n. fold C. rewrite bind_Ret.
    pose proof (Z.div_mod (n * C) 3 ltac:(lia)) as D2. pose proof (Z.mod_pos_bound (n * C) 3 ltac:(lia)) as M2.
    destruct (gray_loop p img Hwf HC (body3 p img) (n * C / 3) 2 (fun k => 32 * (k + 1))) as [[G (d' & E & Ld)]|(k & Hk & Hkn & Hj & F)].
    { fold C. fold n. intros k d Hk Hkn Hd. pose proof (body3_fate p img Hwf HC k d Hk Hkn) as B. fold C in B. fold n in B. rewrite Hd in B. exact B. }
    { lia. }
    + fold n in E, Ld, G. fold C in E, Ld, G. unfold body3 in E. fold C in E. rewrite E, bind_Ret.
      replace (n * C <? 32 * C * (n / 32)) with false by nia. rewrite bind_Ret. unfold gray_fate. fold n C.
      assert (R : exists out, Ret (from_vec (width (info_of img)) (height (info_of img)) 1 false d') = Ret out /\ len (data out) = n * C / 3) by (eexists; split; [reflexivity|exact Ld]).
      replace (C =? 0) with false by lia.
      destruct (Z.eqb_spec C 1) as [E1|N1]; [|destruct (Z.eqb_spec C 2) as [E2|N2]].
      * rewrite E1 in *. destruct (Z.ltb_spec n 32); [rewrite Z.mul_1_r in R; exact R|]. exfalso. destruct (Last ltac:(lia)) as [L1 L2]. destruct (G _ L1 L2) as [A B]. lia.
      * rewrite E2 in *. rewrite (Z.mul_comm n 2) in *. destruct (Z.ltb_spec n 32); [exact R|]. destruct (Last ltac:(lia)) as [L1 L2]. destruct (G _ L1 L2) as [A B].
        replace ((n =? 32) || (n =? 64) || (n =? 96)) with false by lia. replace ((48 <=? n) && (n <? 64)) with true by lia. exact R.
      * exact R.
    + fold n in Hkn, Hj, F. fold C in Hj, F. unfold body3 in F. fold C in F. unfold gray_fate. fold n C. replace (C =? 0) with false by lia.
      assert (X : 3 <= C -> False).
      { intros H4. assert (32 * C * (k + 1) <= n * C) by nia. assert (32 * (k + 1) * 3 <= 32 * (k + 1) * C) by nia. destruct F as [[F _]|[F1 [F2 _]]]; lia. }
      destruct (Z.eqb_spec C 1) as [E1|N1]; [|destruct (Z.eqb_spec C 2) as [E2|N2]].
      * rewrite E1 in *. replace (n <? 32) with false by lia. destruct F as [[F ->]|[F1 [F2 ->]]].
        -- assert (k = 0). { destruct (Z.eq_dec k 0); [assumption|]. pose proof (Hj (k - 1) ltac:(lia)). lia. } replace (n <? 34) with true by lia. reflexivity.
        -- replace (n <? 34) with false by lia. reflexivity.
      * rewrite E2 in *. rewrite (Z.mul_comm n 2) in *. replace (n <? 32) with false by lia. destruct F as [[F ->]|[F1 [F2 ->]]].
        -- assert (Hx : n = (k + 1) * 32) by lia. assert (k <= 2). { destruct (Z_le_gt_dec k 2); [assumption|]. pose proof (Hj (k - 1) ltac:(lia)). lia. }
           replace ((n =? 32) || (n =? 64) || (n =? 96)) with true by lia. reflexivity.
        -- assert (n <> 32 /\ n <> 64 /\ n <> 96 /\ ~ 48 <= n < 64) by lia.
           replace ((n =? 32) || (n =? 64) || (n =? 96)) with false by lia. replace ((48 <=? n) && (n <? 64)) with false by lia. reflexivity.
      * destruct X. lia.
Qed.

(** only RGB and RGBA give an image whose buffer fits its size (from 3 pixels on; smaller ones fit by accident) *)
Theorem C87_result_size p (img out : image Z) : wf img -> 3 <= width (info_of img) * height (info_of img) ->
  rgb_to_grayscale p true img = Ret out ->
  let expected := width (info_of img) * height (info_of img) * (if alpha (info_of img) then 2 else 1) in
  len (data out) = expected <-> alpha (info_of img) = false /\ channels (info_of img) = 3 \/ alpha (info_of img) = true /\ channels (info_of img) = 4.
Proof.
  intros Hwf Hn E expected. pose proof (C87_grayscale p img Hwf) as F. rewrite E in F. pose proof (wf_c _ Hwf) as Hc.
  unfold gray_fate in F. unfold expected. set (n := width (info_of img) * height (info_of img)) in *. set (C := channels (info_of img)) in *.
  assert (K : forall k, ends (Ret out) (Returns k) -> len (data out) = k) by (intros k (o & Eo & Lo); injection Eo as <-; exact Lo).
  destruct (alpha (info_of img)).
  - destruct (Z.eqb_spec C 0); [discriminate F|]. destruct (Z.eqb_spec C 1).
    { destruct (Z.ltb_spec n 32); [|destruct (n <? 35); discriminate F]. apply K in F. rewrite F. Z.to_euclidean_division_equations. lia. }
    destruct (Z.eqb_spec C 2). { destruct (Z.ltb_spec n 32); [|destruct (n mod 32 =? 0); discriminate F]. apply K in F. rewrite F. lia. }
    destruct (Z.eqb_spec C 3). { assert (F' : len (data out) = 3 * n / 2) by (destruct (n <? 32); [apply K; exact F|]; destruct (n mod 32 =? 0); [discriminate F|]; destruct (n mod 32 <=? 10); [discriminate F|]; apply K; exact F). rewrite F'. Z.to_euclidean_division_equations. lia. }
    apply K in F. rewrite F. split.
    + intros H. right. split; [reflexivity|]. assert (n * C <= 4 * n + 1) by (Z.to_euclidean_division_equations; lia). nia.
    + intros [[H _]|[_ H]]; [discriminate|]. rewrite H. replace (n * 4) with (n * 2 * 2) by ring. apply Z.div_mul. lia.
  - destruct (Z.eqb_spec C 0); [discriminate F|]. destruct (Z.eqb_spec C 1).
    { destruct (Z.ltb_spec n 32); [|destruct (n <? 34); discriminate F]. apply K in F. rewrite F. Z.to_euclidean_division_equations. lia. }
    destruct (Z.eqb_spec C 2).
    { assert (F' : len (data out) = 2 * n / 3) by (destruct (n <? 32); [apply K; exact F|]; destruct ((n =? 32) || (n =? 64) || (n =? 96)); [discriminate F|]; destruct ((48 <=? n) && (n <? 64)); [|discriminate F]; apply K; exact F). rewrite F'. Z.to_euclidean_division_equations. lia. }
    apply K in F. rewrite F. split.
    + intros H. left. split; [reflexivity|]. assert (n * C <= 3 * n + 2) by (Z.to_euclidean_division_equations; lia). nia.
    + intros [[_ H]|[H _]]; [|discriminate]. rewrite H, Z.mul_1_r. apply Z.div_mul. lia.
Qed.

(** ** brightness *)
(** a well-formed image: undefined only in release builds and at the very end of the 32-bit range *)
Theorem C87_brightness p (img : image Z) b : wf img -> samples is_u8 img -> -255 <= b <= 255 ->
  (brightness p true img b = UB <-> p = Release /\ 4294967264 <= len (data img)).
Proof.
  intros Hwf Hu Hb. destruct (Z_lt_le_dec (len (data img)) 4294967264) as [L|L].
  - destruct (C40_simd_exact p img b Hwf Hu Hb ltac:(unfold u32_max; lia)) as (out & -> & _). split; [discriminate|lia].
  - rewrite (C40_huge p img b Hwf Hb).
    + destruct p; split; try discriminate; try tauto. intros [? _]. discriminate.
    + unfold u32_max. pose proof (Z.div_mod (len (data img)) 32 ltac:(lia)). pose proof (Z.mod_pos_bound (len (data img)) 32 ltac:(lia)). lia.
Qed.
(** the constructors accept any buffer; if it is shorter than announced (by a whole chunk of 32 samples), brightness reads past its end *)
Theorem C87_short_buffer_refuted p w h c (al : bool) (samples : list Z) b : let N := w * h * c in
  0 <= w <= u32_max -> 0 <= h <= u32_max -> 0 <= c <= 255 -> w * h <= u32_max -> N <= u32_max -> -255 <= b <= 255 ->
  len samples < 32 * (N / 32) -> brightness p true (from_vec w h c al samples) b = UB.
Proof.
  intros N Hw Hh Hc Hwh HN Hb HL. unfold u32_max in *. set (img := from_vec w h c al samples).
  assert (N0 : 0 <= N) by (unfold N; nia).
  unfold brightness. destruct (check_bias p b Hb) as [Ea Ec]. rewrite Ea, bind_Ret, Ec, bind_Ret.
  unfold adds_256_u8, full_size. unfold img. cbn [from_vec info_of data width height channels alpha]. fold N.
  rewrite imul_ok by ity_lia. rewrite bind_Ret. fold N. rewrite imul_ok by (fold N; ity_lia). fold N. rewrite bind_Ret, Ea, bind_Ret.
  rewrite val_reg by exact Hb. cbv zeta. rewrite alpha_reg.
  match goal with |- context [adds_loop p _ N 32 b ?v] => set (vr := v) end.
  assert (Hvl : length vr = 32%nat) by (unfold vr; destruct al; [rewrite map_length, zrange_length; reflexivity|apply repeat_length]).
  assert (E : adds_loop p img N 32 b vr = UB).
  2:{ unfold img in E. rewrite E. reflexivity. }
  unfold adds_loop. pose proof (len_nonneg samples) as L0.
  pose proof (Z.div_mod N 32 ltac:(lia)) as DN. pose proof (Z.mod_pos_bound N 32 ltac:(lia)) as MN.
  pose proof (Z.div_mod (len samples) 32 ltac:(lia)) as DL. pose proof (Z.mod_pos_bound (len samples) 32 ltac:(lia)) as ML.
  set (zz := repeat 0 (Z.to_nat N)). change (0, zz) with (32 * 0, zz).
  apply (loop_stops N (fun k => 32 * k)) with (j := len samples / 32); try lia.
  - intros k d Hk Hd. rewrite iadd_ok by ity_lia. rewrite bind_Ret. split; [f_equal; lia|].
    change (data img) with samples. rewrite loadu_ok by lia. rewrite bind_Ret.
    match goal with |- context [store d (32 * k) ?r] => pose proof (store_len d (32 * k) r ltac:(lia)) as St; assert (Lr : len r = 32) end.
    { destruct (0 <? b); unfold len, adds_epu8, subs_epu8; rewrite map2_length, firstn_length, skipn_length, Hvl; unfold len in *; lia. }
    rewrite Lr in St. replace (32 * k + 32 <=? len d) with true in St by lia. destruct St as (d' & -> & Ld). rewrite bind_Ret.
    rewrite bind_Ret. exists d'. split; [do 2 f_equal; ring|lia].
  - intros d Hd. rewrite iadd_ok by ity_lia. rewrite bind_Ret. split; [f_equal; lia|]. change (data img) with samples. rewrite loadu_UB by lia. reflexivity.
  - right. reflexivity.
  - unfold zz. rewrite len_repeat. lia.
Qed.

(** ** saturation: undefined exactly for colour images without alpha whose number of pixels is a multiple of ten *)
Theorem C87_saturation p (img : image Z) d : wf img -> samples is_u8 img -> colors (info_of img) = 3 ->
  let n := width (info_of img) * height (info_of img) in 0 < n -> n * channels (info_of img) + 32 <= u32_max -> -255 <= d <= 255 ->
  (saturation p true img d = UB <-> alpha (info_of img) = false /\ n mod 10 = 0).
Proof.
  intros Hwf Hu Hc n Hn HN Hd. split.
  - intros E. destruct (alpha (info_of img)) eqn:Ea.
    + destruct (C41_simd_exact p img d Hwf Hu Hc Hn Hd HN) as (out & ref & E' & _); [left; exact Ea|]. rewrite E in E'. discriminate.
    + split; [reflexivity|]. destruct (Z.eq_dec (n mod 10) 0) as [Hm|Hm]; [exact Hm|].
      destruct (C41_simd_exact p img d Hwf Hu Hc Hn Hd HN) as (out & ref & E' & _); [right; right; exact Hm|]. rewrite E in E'. discriminate.
  - intros [Ea Hm]. exact (C41_simd_UB p img d Hwf Hu Hc Hn Hd Ea Hm).
Qed.

(** concrete cases: an ordinary 10x5 gray image, a 5x7 gray+alpha image and a 7x7 two-channel one are undefined; a 8x4 gray+alpha image panics *)
Theorem C87_example p :
  let gray w h c a := Image (Info w h c a) (repeat 9 (Z.to_nat (w * h * c))) in
  (wf (gray 10 5 1 false) /\ rgb_to_grayscale p true (gray 10 5 1 false) = UB)
  /\ (wf (gray 5 7 2 true) /\ rgb_to_grayscale p true (gray 5 7 2 true) = UB)
  /\ (wf (gray 7 5 2 false) /\ rgb_to_grayscale p true (gray 7 5 2 false) = UB)
  /\ (wf (gray 8 4 2 true) /\ rgb_to_grayscale p true (gray 8 4 2 true) = Panic)
  /\ brightness p true (from_vec 8 8 1 false (repeat 9 63)) 5 = UB.
Proof.
  cbv zeta. conj; try (apply wfb_wf; reflexivity); try (destruct p; vm_compute; reflexivity).
Qed.
