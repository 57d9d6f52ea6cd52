(** * C46, C47: rgb_to_grayscale (src/colorspace.rs, src/simd.rs) *)
From Verif.Proofs Require Import BaseL ImageL ImageOps ToneL SimdL.
From Verif.Model Require Import Colorspace.
From Verif.Spec Require Import ImageS ColorS.
From Verif.Props Require Import ImageP HsvP ToneP.
Open Scope Z_scope.

(** ** C46: the scalar version *)
Lemma len_cons {A} (x : A) l : len (x :: l) = 1 + len l.
Proof. unfold len. cbn [length]. lia. Qed.
(** the sum of a list *)
Definition total (cs : list Z) : Z := fold_right Z.add 0 cs.
Definition mean (cs : list Z) : Z := total cs / len cs.

Lemma sum_bounds (cs : list Z) lo hi : (forall s, In s cs -> lo <= s <= hi) -> lo * len cs <= total cs <= hi * len cs.
Proof.
  induction cs as [|c cs IH]; intros H; [cbn; unfold len; cbn; lia|].
  rewrite len_cons. cbn [total fold_right]. specialize (IH (fun s Hs => H s (or_intror Hs))). specialize (H c (or_introl eq_refl)).
  unfold total in IH. nia.
Qed.

Lemma sum_loop p cs : forall acc, Forall is_u8 cs -> 0 <= acc -> acc + 255 * len cs <= 32767 ->
  mfold (fun sum c => iadd p I16 sum (cast I16 c)) cs acc = Ret (acc + total cs).
Proof.
  induction cs as [|c cs IH]; intros acc Hu Ha Hl; [cbn; f_equal; lia|].
  rewrite len_cons in Hl. pose proof (len_nonneg cs). inversion Hu as [|? ? Hc Hcs]; subst. unfold is_u8 in Hc.
  cbn [mfold]. rewrite cast_id by ity_lia. rewrite iadd_ok by ity_lia. rewrite bind_Ret, IH by (auto; lia).
  f_equal. cbn [total fold_right]. unfold total. lia.
Qed.

Lemma gray_norm_ok p cs : Forall is_u8 cs -> 1 <= len cs <= 128 ->
  gray_norm_px p cs = Ret [mean cs] /\ 0 <= mean cs <= 255.
Proof.
  intros Hu Hl. unfold gray_norm_px. rewrite sum_loop by (auto; lia). rewrite bind_Ret, Z.add_0_l.
  assert (Hs : 0 <= total cs <= 255 * len cs).
  { pose proof (sum_bounds cs 0 255). rewrite Forall_forall in Hu. unfold is_u8 in Hu. specialize (H Hu). lia. }
  assert (Hm : 0 <= mean cs <= 255).
  { unfold mean. split; [apply Z.div_pos; lia|]. apply Z.div_le_upper_bound; lia. }
  split; [|exact Hm]. rewrite cast_id by ity_lia. rewrite idiv_ok by ity_lia. rewrite bind_Ret.
  fold (mean cs). rewrite cast_id by ity_lia. reflexivity.
Qed.

Theorem C46_grayscale p (img : image Z) : wf img -> samples is_u8 img ->
  1 <= colors (info_of img) <= 128 -> 0 < width (info_of img) * height (info_of img) ->
  exists out, rgb_to_grayscale p false img = Ret out
    /\ repixeled (fun cs => [total cs / len cs]) (fun a => a) 1 img out /\ samples is_u8 out.
Proof.
  intros Hwf Hu Hc Hne. unfold rgb_to_grayscale, rgb_to_grayscale_norm.
  unfold samples in Hu. rewrite Forall_forall in Hu.
  assert (HC : alpha (info_of img) = false \/ 0 < channels (info_of img)).
  { unfold colors in Hc. destruct (alpha (info_of img)); [right; lia|left; reflexivity]. }
  destruct (map_if_alpha_repixeled p img (gray_norm_px p) (fun a => Ret a) (fun cs => [mean cs]) (fun a => a) 1) as [out [E R]]; auto; try lia.
  - pose proof (wf_full _ Hwf). unfold colors in Hc. destruct (alpha (info_of img)); nia.
  - intros cs Hl Hin. split; [|reflexivity]. apply gray_norm_ok; [|lia]. apply Forall_forall. auto.
  - exists out. split; [exact E|]. split; [exact R|].
    apply samples_pixels; [apply R|]. intros x y Hin. rewrite (repixeled_inside _ _ _ _ _ x y R) in Hin.
    destruct (pixel_colors img x y Hwf Hin HC) as [cs [rest [Ep [Hl Hr]]]].
    rewrite (repixeled_pixel _ _ _ _ _ x y cs rest R Hin Ep Hr), map_id.
    assert (F : Forall is_u8 (cs ++ rest)).
    { rewrite <- Ep. apply Forall_forall. intros s Hs. apply Hu. apply (pixel_in_data _ _ _ _ Hs). }
    apply Forall_app in F as [F1 F2]. apply Forall_app. split; [|exact F2].
    apply Forall_cons; [|apply Forall_nil]. apply (proj2 (gray_norm_ok p cs F1 ltac:(lia))).
Qed.

(** the mean lies between the smallest and the largest sample *)
Theorem C46_between cs lo hi : 1 <= len cs -> (forall s, In s cs -> lo <= s <= hi) -> lo <= total cs / len cs <= hi.
Proof.
  intros Hl H. pose proof (sum_bounds cs lo hi H). split; [apply Z.div_le_lower_bound; lia|apply Z.div_le_upper_bound; lia].
Qed.

(** an image with only an alpha channel (or none at all) panics: division by zero *)
Theorem C46_no_color p (img : image Z) : wf img -> 0 < width (info_of img) * height (info_of img) ->
  colors (info_of img) = 0 -> rgb_to_grayscale p false img = Panic.
Proof.
  intros Hwf Hne Hc. apply map_if_alpha_panic; auto. intros cs Hl. rewrite Hc in Hl.
  destruct cs; [reflexivity|]. rewrite len_cons in Hl. pose proof (len_nonneg cs). lia.
Qed.
Example C46_example : 1 <= colors (info_of ex_rgba) <= 128 /\
  match rgb_to_grayscale Debug false ex_rgba with
  | Ret out => data out = [2;4; 6;8; 10;12; 14;16; 18;20; 22;24] | _ => False end.
Proof. split; [cbn; lia|]. vm_compute. reflexivity. Qed.

(** ** C47: the vector version *)
(** rounding average of two bytes, and what is computed for a pixel: weights 1/4, 1/4, 1/2 *)
Definition avg2 (x y : Z) : Z := (x + y + 1) / 2.
Definition gray3 (r g b : Z) : Z := avg2 (avg2 r g) b.

Lemma mwhile_count {S} (st : Z -> S) c body M fuel : 0 <= M ->
  (forall m, 0 <= m < M -> c (st m) = Ret true /\ body (st m) = Ret (st (m + 1))) ->
  c (st M) = Ret false -> mwhile (Z.to_nat M + Datatypes.S fuel) c body (st 0) = Ret (st M).
Proof.
  intros HM Hs Hc. revert fuel.
  assert (G : forall k fuel, 0 <= k <= M -> mwhile (Z.to_nat k + Datatypes.S fuel) c body (st (M - k)) = Ret (st M)).
  { intros k fuel [Hk0 Hk]. revert Hk fuel. pattern k. apply natlike_ind; [| |exact Hk0].
    - intros _ fuel. rewrite Z.sub_0_r. cbn [Nat.add Z.to_nat]. rewrite mwhile_S, Hc, bind_Ret. reflexivity.
    - intros j Hj IH Hle fuel. unfold Z.succ in *. replace (Z.to_nat (j + 1) + Datatypes.S fuel)%nat with (Datatypes.S (Z.to_nat j + Datatypes.S fuel)) by lia.
      destruct (Hs (M - (j + 1)) ltac:(lia)) as [H1 H2]. rewrite (mwhile_step _ _ _ _ _ H1 H2).
      replace (M - (j + 1) + 1) with (M - j) by lia. apply IH. lia. }
  intros fuel. specialize (G M fuel ltac:(lia)). rewrite Z.sub_diag in G. exact G.
Qed.

Lemma zrange_step_32 o c : 0 < c -> zrange_step o (o + 32 * c) c = Ret (map (fun j => o + j * c) (zrange 0 32)).
Proof.
  intros Hc. unfold zrange_step. replace (c <=? 0) with false by lia. f_equal. unfold zrange_step_pos.
  replace (o + 32 * c - o + c - 1) with (c - 1 + 32 * c) by ring. rewrite Z.div_add by lia. rewrite Z.div_small by lia.
  cbn [Z.add]. change (Z.to_nat 32) with 32%nat. unfold zrange. rewrite map_map. change (Z.to_nat (32 - 0)) with 32%nat.
  apply map_ext. intros k. ring.
Qed.

Lemma deinterleave_ok p (img : image Z) o c : 0 < channels (info_of img) <= 255 -> 0 <= o -> 0 <= c ->
  len (data img) <= u32_max -> o + 31 * channels (info_of img) + c < len (data img) ->
  deinterleave p img o c = Ret (map (fun j => nth (Z.to_nat (o + j * channels (info_of img) + c)) (data img) 0) (zrange 0 32)).
Proof.
  intros HC Ho Hc Hb Hl. unfold u32_max in Hb. unfold deinterleave. set (C := channels (info_of img)) in *.
  rewrite imul_ok by ity_lia. rewrite bind_Ret, iadd_ok by ity_lia. rewrite bind_Ret, zrange_step_32 by lia. rewrite bind_Ret.
  rewrite mmap_map. apply mmap_Ret. intros j Hj. apply in_zrange in Hj.
  assert (0 <= j * C <= 31 * C) by nia. rewrite iadd_ok by ity_lia. rewrite bind_Ret. apply vget_ok. lia.
Qed.

Lemma map2_map_zrange {A B C} (h : A -> B -> C) (f : Z -> A) (g : Z -> B) a b :
  map2 h (map f (zrange a b)) (map g (zrange a b)) = map (fun j => h (f j) (g j)) (zrange a b).
Proof. induction (zrange a b) as [|x l IH]; cbn; [reflexivity|f_equal; exact IH]. Qed.

Section Simd47.
  Context (p : profile) (img : image Z) (Hwf : wf img) (Hu : samples is_u8 img).
  Notation W := (width (info_of img)).
  Notation Hh := (height (info_of img)).
  Notation C := (channels (info_of img)).
  Notation n := (width (info_of img) * height (info_of img)).
  (** sample c of pixel number i (row by row) *)
  Definition smp (i c : Z) : Z := nth (Z.to_nat (i * C + c)) (data img) 0.
  Definition g3 (i : Z) : Z := gray3 (smp i 0) (smp i 1) (smp i 2).

  Lemma N47 : len (data img) = n * C. Proof. apply (wf_data _ Hwf). Qed.
  Lemma n_nonneg : 0 <= n. Proof. pose proof (wf_w _ Hwf). pose proof (wf_h _ Hwf). nia. Qed.
  Lemma nC_max : n * C <= u32_max. Proof. apply (wf_full _ Hwf). Qed.

  Lemma deint o c : 3 <= C -> 0 <= o -> 0 <= c < C -> o + 32 <= n ->
    deinterleave p img (o * C) c = Ret (map (fun j => smp (o + j) c) (zrange 0 32)).
  Proof.
    intros H3 Ho Hc Hl. pose proof N47 as HN. pose proof nC_max. pose proof (wf_c _ Hwf).
    rewrite deinterleave_ok; try lia; try (rewrite HN; nia); try nia.
    f_equal. apply map_ext. intros j. unfold smp. do 2 f_equal. ring.
  Qed.
  Lemma avg_reg o : avg_epu8 (avg_epu8 (map (fun j => smp (o + j) 0) (zrange 0 32)) (map (fun j => smp (o + j) 1) (zrange 0 32)))
                             (map (fun j => smp (o + j) 2) (zrange 0 32))
    = map (fun j => g3 (o + j)) (zrange 0 32).
  Proof. unfold avg_epu8. rewrite !map2_map_zrange. reflexivity. Qed.

  (** ** without alpha *)
  Definition st3 (m : Z) : Z * list Z := (m * 32 * C, map (fun j => if j <? 32 * m then g3 j else 0) (zrange 0 n)).

  Lemma simd_rgb : alpha (info_of img) = false -> C = 3 ->
    rgb_to_grayscale p true img = Ret (Image (Info W Hh 1 false) (snd (st3 (n / 32)))).
  Proof.
    intros Ha H3. unfold rgb_to_grayscale, avg_checked_256_u8. rewrite Ha. unfold avg_256_u8.
    pose proof N47 as HN. pose proof nC_max as Hmax. pose proof n_nonneg as Hn. unfold u32_max in Hmax.
    rewrite imul_ok by (rewrite H3; ity_lia). rewrite bind_Ret, full_size_ok by exact Hwf. rewrite bind_Ret.
    pose proof (Z.div_mod n 32) as Hdm. pose proof (Z.mod_pos_bound n 32) as Hmb. set (M := n / 32) in *.
    assert (HM : 0 <= M) by (apply Z.div_pos; lia).
    assert (E0 : (0, repeat 0 (Z.to_nat (n * C / 3))) = st3 0).
    { unfold st3. f_equal. rewrite H3, Z.div_mul by lia. apply list_ext with (d := 0).
      - rewrite repeat_length, map_length, zrange_length. f_equal. lia.
      - rewrite repeat_length. intros j Hj. rewrite nth_repeat' by exact Hj.
        replace j with (Z.to_nat (Z.of_nat j)) at 1 by lia. rewrite nth_map_zrange by lia.
        replace (0 + Z.of_nat j <? 32 * 0) with false by lia. reflexivity. }
    rewrite E0.
    replace (Datatypes.S (Z.to_nat (n * C))) with (Z.to_nat M + Datatypes.S (Z.to_nat (n * C - M)))%nat by (rewrite H3; lia).
    rewrite mwhile_count; [|exact HM| |].
    - rewrite bind_Ret. unfold st3 at 1. cbn [fst snd].
      replace (n * C <? M * 32 * C) with false by (rewrite H3; lia). rewrite bind_Ret. rewrite Ha. reflexivity.
    - intros m Hm. split.
      + cbn [st3]. unfold st3. rewrite iadd_ok by (rewrite H3; ity_lia). rewrite bind_Ret. f_equal. rewrite H3. lia.
      + unfold st3 at 1.
        rewrite !deint by lia. rewrite !bind_Ret. rewrite avg_reg.
        rewrite idiv_ok by (rewrite ?H3; ity_lia). rewrite bind_Ret. replace (m * 32 * C / C) with (m * 32) by (rewrite Z.div_mul; lia).
        match goal with |- context [store ?v ?i ?r] => destruct (store_ok v i r) as [out [-> [Hl Hnth]]] end.
        { lia. } { rewrite !len_map, !len_zrange by lia. lia. }
        rewrite bind_Ret. rewrite iadd_ok by (rewrite ?H3; ity_lia). rewrite bind_Ret. f_equal. unfold st3. f_equal; [rewrite H3; ring|].
        rewrite map_length, zrange_length in Hl, Hnth.
        apply list_ext with (d := 0); [rewrite Hl, map_length, zrange_length; reflexivity|].
        intros j Hj. rewrite Hnth. change (Z.to_nat (32 - 0)) with 32%nat.
        replace j with (Z.to_nat (Z.of_nat j)) at 4 5 by lia. rewrite !nth_map_zrange by lia.
        destruct (Nat.leb_spec (Z.to_nat (m * 32)) j) as [L1|L1]; cbn [andb].
        * destruct (Nat.ltb_spec j (Z.to_nat (m * 32) + 32)) as [L2|L2].
          -- replace (j - Z.to_nat (m * 32))%nat with (Z.to_nat (Z.of_nat j - m * 32)) by lia.
             rewrite nth_map_zrange by lia. replace (0 + Z.of_nat j <? 32 * (m + 1)) with true by lia. f_equal. lia.
          -- replace (0 + Z.of_nat j <? 32 * (m + 1)) with false by lia. replace (0 + Z.of_nat j <? 32 * m) with false by lia. reflexivity.
        * replace (0 + Z.of_nat j <? 32 * (m + 1)) with true by lia. replace (0 + Z.of_nat j <? 32 * m) with true by lia. reflexivity.
    - unfold st3. rewrite iadd_ok by (rewrite H3; ity_lia). rewrite bind_Ret. f_equal. rewrite H3. lia.
  Qed.

  (** ** with alpha *)
  Definition ga (j : Z) : Z := if Z.even j then g3 (j / 2) else smp (j / 2) 3.
  Definition st4 (m : Z) : Z * list Z := (m * 32 * C, map (fun j => if j <? 64 * m then ga j else 0) (zrange 0 (2 * n))).

  (** a store of bytes computed by position *)
  Lemma store_map (v : list Z) (f h : Z -> Z) L i k : v = map f (zrange 0 L) -> 0 <= i -> 0 <= k -> i + k <= L ->
    store v i (map h (zrange 0 k)) = Ret (map (fun j => if (i <=? j) && (j <? i + k) then h (j - i) else f j) (zrange 0 L)).
  Proof.
    intros -> Hi Hk Hl. destruct (store_ok (map f (zrange 0 L)) i (map h (zrange 0 k))) as [out [-> [Hlo Hnth]]].
    { exact Hi. } { rewrite !len_map, !len_zrange by lia. lia. }
    f_equal. rewrite map_length, zrange_length in *.
    apply list_ext with (d := 0); [rewrite Hlo, map_length, zrange_length; reflexivity|].
    intros j Hj. rewrite Hnth. replace j with (Z.to_nat (Z.of_nat j)) at 4 5 by lia. rewrite !nth_map_zrange by lia.
    destruct (Nat.leb_spec (Z.to_nat i) j) as [L1|L1]; cbn [andb].
    - replace (i <=? 0 + Z.of_nat j) with true by lia. cbn [andb].
      destruct (Nat.ltb_spec j (Z.to_nat i + Z.to_nat (k - 0))) as [L2|L2].
      + replace (0 + Z.of_nat j <? i + k) with true by lia.
        replace (j - Z.to_nat i)%nat with (Z.to_nat (Z.of_nat j - i)) by lia. rewrite nth_map_zrange by lia. reflexivity.
      + replace (0 + Z.of_nat j <? i + k) with false by lia. reflexivity.
    - replace (i <=? 0 + Z.of_nat j) with false by lia. reflexivity.
  Qed.

  Lemma unpack_parts (f g : Z -> Z) :
    let F := map f (zrange 0 32) in let G := map g (zrange 0 32) in
    let h k := map (fun j => if Z.even (j + k) then f ((j + k) / 2) else g ((j + k) / 2)) (zrange 0 16) in
    bytes (unpacklo_epi8 F G) 0 16 = h 0 /\ bytes (unpacklo_epi8 F G) 16 16 = h 32
    /\ bytes (unpackhi_epi8 F G) 0 16 = h 16 /\ bytes (unpackhi_epi8 F G) 16 16 = h 48.
  Proof. repeat split; reflexivity. Qed.

  Lemma simd_rgba : alpha (info_of img) = true -> C = 4 ->
    rgb_to_grayscale p true img = Ret (Image (Info W Hh 2 true) (snd (st4 (n / 32)))).
  Proof.
    intros Ha H4. unfold rgb_to_grayscale, avg_checked_256_u8. rewrite Ha. unfold avg_alpha_256_u8.
    pose proof N47 as HN. pose proof nC_max as Hmax. pose proof n_nonneg as Hn. unfold u32_max in Hmax.
    rewrite imul_ok by (rewrite H4; ity_lia). rewrite bind_Ret, full_size_ok by exact Hwf. rewrite bind_Ret.
    pose proof (Z.div_mod n 32) as Hdm. pose proof (Z.mod_pos_bound n 32) as Hmb. set (M := n / 32) in *.
    assert (HM : 0 <= M) by (apply Z.div_pos; lia).
    assert (E0 : (0, repeat 0 (Z.to_nat (n * C / 2))) = st4 0).
    { unfold st4. f_equal. rewrite H4. replace (n * 4 / 2) with (2 * n) by (replace (n * 4) with (2 * n * 2) by ring; rewrite Z.div_mul; lia).
      apply list_ext with (d := 0).
      - rewrite repeat_length, map_length, zrange_length. f_equal. lia.
      - rewrite repeat_length. intros j Hj. rewrite nth_repeat' by exact Hj.
        replace j with (Z.to_nat (Z.of_nat j)) at 1 by lia. rewrite nth_map_zrange by lia.
        replace (0 + Z.of_nat j <? 64 * 0) with false by lia. reflexivity. }
    rewrite E0.
    replace (Datatypes.S (Z.to_nat (n * C))) with (Z.to_nat M + Datatypes.S (Z.to_nat (n * C - M)))%nat by (rewrite H4; lia).
    rewrite mwhile_count; [|exact HM| |].
    - rewrite bind_Ret. unfold st4 at 1. cbn [fst snd].
      replace (n * C <? M * 32 * C) with false by (rewrite H4; lia). rewrite bind_Ret. rewrite Ha. reflexivity.
    - intros m Hm. split.
      + unfold st4. rewrite iadd_ok by (rewrite H4; ity_lia). rewrite bind_Ret. f_equal. rewrite H4. lia.
      + unfold st4 at 1.
        rewrite !deint by lia. rewrite !bind_Ret. rewrite avg_reg.
        destruct (unpack_parts (fun j => g3 (m * 32 + j)) (fun j => smp (m * 32 + j) 3)) as [P1 [P2 [P3 P4]]].
        unfold storeu2. rewrite P1, P2, P3, P4.
        replace (m * 32 * C / 2) with (64 * m) by (rewrite H4; replace (m * 32 * 4) with (64 * m * 2) by ring; rewrite Z.div_mul; lia).
        rewrite (store_map _ _ _ _ _ _ eq_refl) by lia. rewrite bind_Ret.
        rewrite (store_map _ _ _ _ _ _ eq_refl) by lia. rewrite bind_Ret.
        rewrite (store_map _ _ _ _ _ _ eq_refl) by lia. rewrite bind_Ret.
        rewrite (store_map _ _ _ _ _ _ eq_refl) by lia. rewrite bind_Ret.
        rewrite iadd_ok by (rewrite ?H4; ity_lia). rewrite bind_Ret. f_equal. unfold st4. f_equal; [rewrite H4; ring|].
        apply map_ext_in. intros j Hj. apply in_zrange in Hj.
        assert (G : forall k, (if Z.even (j - 64 * m - k + k) then g3 (m * 32 + (j - 64 * m - k + k) / 2) else smp (m * 32 + (j - 64 * m - k + k) / 2) 3) = ga j).
        { intros k. unfold ga. replace (j - 64 * m - k + k) with (j + 2 * (- 32 * m)) by ring.
          rewrite Z.even_add_mul_2. replace (j + 2 * (- 32 * m)) with (j + (- 32 * m) * 2) by ring. rewrite Z.div_add by lia. replace (m * 32 + (j / 2 + - 32 * m)) with (j / 2) by ring. reflexivity. }
        pose proof (G 0) as G0. pose proof (G 16) as G16. pose proof (G 32) as G32. pose proof (G 48) as G48. clear G.
        rewrite Z.sub_0_r in G0.
        replace (j - (64 * m + 48)) with (j - 64 * m - 48) by ring. replace (j - (64 * m + 32)) with (j - 64 * m - 32) by ring.
        replace (j - (64 * m + 16)) with (j - 64 * m - 16) by ring. rewrite G0, G16, G32, G48.
        destruct (Z.ltb_spec j (64 * (m + 1))) as [L|L].
        * destruct (Z.ltb_spec j (64 * m)) as [L2|L2].
          -- replace (64 * m + 48 <=? j) with false by lia. replace (64 * m + 16 <=? j) with false by lia.
             replace (64 * m + 32 <=? j) with false by lia. replace (64 * m <=? j) with false by lia. reflexivity.
          -- replace (64 * m <=? j) with true by lia.
             destruct ((64 * m + 48 <=? j) && (j <? 64 * m + 48 + 16)) eqn:B48; [reflexivity|].
             destruct ((64 * m + 16 <=? j) && (j <? 64 * m + 16 + 16)) eqn:B16; [reflexivity|].
             destruct ((64 * m + 32 <=? j) && (j <? 64 * m + 32 + 16)) eqn:B32; [reflexivity|].
             cbn [andb]. replace (j <? 64 * m + 16) with true by lia. reflexivity.
        * replace (j <? 64 * m + 48 + 16) with false by lia. replace (j <? 64 * m + 16 + 16) with false by lia.
          replace (j <? 64 * m + 32 + 16) with false by lia. replace (j <? 64 * m + 16) with false by lia.
          replace (j <? 64 * m) with false by lia. rewrite !andb_false_r. reflexivity.
    - unfold st4. rewrite iadd_ok by (rewrite H4; ity_lia). rewrite bind_Ret. f_equal. rewrite H4. lia.
  Qed.

  Lemma sample_smp x y c : inside img x y -> 0 <= c < C -> nth (Z.to_nat c) (pixel_at img x y) 0 = smp (y * W + x) c.
  Proof. intros Hin Hc. apply nth_pixel; assumption. Qed.

  (** the number of pixels the vector loop handles *)
  Definition handled : Z := 32 * (n / 32).

  Theorem C47_rgb : alpha (info_of img) = false -> C = 3 ->
    exists out, rgb_to_grayscale p true img = Ret out /\ wf out /\ info_of out = Info W Hh 1 false
      /\ forall x y r g b, inside img x y -> pixel_at img x y = [r; g; b] ->
         pixel_at out x y = [if y * W + x <? handled then gray3 r g b else 0].
  Proof.
    intros Ha H3. rewrite simd_rgb by assumption. pose proof n_nonneg as Hn. pose proof nC_max as Hmax.
    set (out := Image _ _). exists out.
    assert (Wo : wf out).
    { destruct Hwf. constructor; cbn [out info_of data width height channels alpha snd st3 st4]; auto; try lia; try nia. rewrite len_map, len_zrange by lia. lia. }
    split; [reflexivity|]. split; [exact Wo|]. split; [reflexivity|].
    intros x y r g b Hin Ep.
    assert (Hino : inside out x y) by exact Hin.
    pose proof (pixel_at_len out Wo x y Hino) as Hl. change (channels (info_of out)) with 1 in Hl. 
    destruct (pixel_at out x y) as [|v [|? ?]] eqn:Eo; unfold len in Hl; cbn [length] in Hl; try lia. f_equal.
    assert (Hnum : 0 <= y * W + x < n) by (destruct Hin; split; nia).
    pose proof (nth_pixel out x y 0 0 Hino ltac:(cbn; lia)) as E. rewrite Eo in E. cbn [nth Z.to_nat] in E.
    cbn [out info_of data width channels snd st3] in E. rewrite Z.mul_1_r, Z.add_0_r in E.
    rewrite nth_map_zrange in E by lia. rewrite E. replace (0 + (y * W + x)) with (y * W + x) by ring. fold handled.
    destruct (_ <? _); [|reflexivity]. unfold g3.
    rewrite <- !sample_smp by (try exact Hin; lia). rewrite Ep. reflexivity.
  Qed.

  Theorem C47_rgba : alpha (info_of img) = true -> C = 4 ->
    exists out, rgb_to_grayscale p true img = Ret out /\ wf out /\ info_of out = Info W Hh 2 true
      /\ forall x y r g b a, inside img x y -> pixel_at img x y = [r; g; b; a] ->
         pixel_at out x y = if y * W + x <? handled then [gray3 r g b; a] else [0; 0].
  Proof.
    intros Ha H4. rewrite simd_rgba by assumption. pose proof n_nonneg as Hn. pose proof nC_max as Hmax.
    set (out := Image _ _). exists out.
    assert (Wo : wf out).
    { destruct Hwf. constructor; cbn [out info_of data width height channels alpha snd st3 st4]; auto; try lia; try nia. rewrite len_map, len_zrange by lia. lia. }
    split; [reflexivity|]. split; [exact Wo|]. split; [reflexivity|].
    intros x y r g b a Hin Ep.
    assert (Hino : inside out x y) by exact Hin.
    pose proof (pixel_at_len out Wo x y Hino) as Hl. change (channels (info_of out)) with 2 in Hl. 
    destruct (pixel_at out x y) as [|v0 [|v1 [|? ?]]] eqn:Eo; unfold len in Hl; cbn [length] in Hl; try lia.
    assert (Hnum : 0 <= y * W + x < n) by (destruct Hin; split; nia). set (i := y * W + x) in *.
    assert (E : forall c, 0 <= c < 2 -> nth (Z.to_nat c) [v0; v1] 0 = if i <? handled then (if c =? 0 then gray3 r g b else a) else 0).
    { intros c Hc. rewrite <- Eo. rewrite (nth_pixel out x y c 0 Hino ltac:(cbn; lia)).
      cbn [out info_of data width channels snd st4]. fold i.
      rewrite nth_map_zrange by lia. replace (0 + (i * 2 + c)) with (i * 2 + c) by ring.
      replace (i * 2 + c <? 64 * (n / 32)) with (i <? handled) by (unfold handled; lia).
      destruct (i <? handled); [|reflexivity]. unfold ga, g3.
      replace ((i * 2 + c) / 2) with i by (rewrite Z.div_add_l by lia; rewrite Z.div_small; lia).
      unfold i. rewrite <- !sample_smp by (try exact Hin; lia). rewrite Ep.
      assert (c = 0 \/ c = 1) as [-> | ->] by lia.
      - rewrite Z.add_0_r, Z.even_mul, orb_true_r. reflexivity.
      - rewrite Z.even_add, Z.even_mul, orb_true_r. reflexivity. }
    pose proof (E 0 ltac:(lia)) as E0. pose proof (E 1 ltac:(lia)) as E1. change (Z.to_nat 0) with 0%nat in E0. change (Z.to_nat 1) with 1%nat in E1. cbn [nth Z.eqb Pos.eqb] in E0, E1.
    rewrite E0, E1. destruct (i <? handled); reflexivity.
  Qed.
End Simd47.

(** what the approximate average is: between the smallest and the largest sample, up to 43 away from the mean *)
Theorem C47_average r g b : is_u8 r -> is_u8 g -> is_u8 b ->
  Z.min r (Z.min g b) <= gray3 r g b <= Z.max r (Z.max g b)
  /\ Z.abs (gray3 r g b - (r + g + b) / 3) <= 43.
Proof. intros Hr Hg Hb. unfold gray3, avg2, is_u8 in *. Z.to_euclidean_division_equations. split; lia. Qed.
(** the expectation "equal up to rounding of at most 1" is refuted: blue comes out as 128 instead of 85,
    and images of less than 32 pixels come out black *)
Theorem C47_refuted p : let img := Image (Info 32 1 3 false) (concat (repeat [0; 0; 255] 32)) in
  wf img /\ samples is_u8 img /\
  match rgb_to_grayscale p true img, rgb_to_grayscale p false img with
  | Ret a, Ret b => data a = repeat 128 32 /\ data b = repeat 85 32 | _, _ => False end.
Proof.
  cbv zeta. split; [apply wfb_wf; reflexivity|]. split; [repeat apply Forall_cons; try apply Forall_nil; unfold is_u8; lia|].
  destruct p; vm_compute; auto.
Qed.
Theorem C47_small p (img : image Z) : wf img -> samples is_u8 img -> alpha (info_of img) = false -> channels (info_of img) = 3 ->
  width (info_of img) * height (info_of img) < 32 ->
  exists out, rgb_to_grayscale p true img = Ret out /\ forall x y, inside img x y -> pixel_at out x y = [0].
Proof.
  intros Hwf Hu Ha H3 Hs. destruct (C47_rgb p img Hwf Ha H3) as [out [E [_ [_ D]]]]. exists out. split; [exact E|].
  intros x y Hin. pose proof (pixel_at_len img Hwf x y Hin) as Hl. rewrite H3 in Hl. destruct (triple _ Hl) as [r [g [b Ep]]].
  rewrite (D x y r g b Hin Ep). unfold handled. pose proof (n_nonneg img Hwf). rewrite Z.div_small by lia.
  destruct Hin. replace (_ <? 32 * 0) with false; [reflexivity|]. symmetry. apply Z.ltb_ge. nia.
Qed.

(** one-channel images: the vector code reads past each pixel and writes 32 bytes per 32 samples
    into a buffer of a third of the size *)
Theorem C47_gray_UB p (img : image Z) : wf img -> alpha (info_of img) = false -> channels (info_of img) = 1 ->
  34 <= width (info_of img) * height (info_of img) -> rgb_to_grayscale p true img = UB.
Proof.
  intros Hwf Ha H1 Hn. unfold rgb_to_grayscale, avg_checked_256_u8. rewrite Ha. unfold avg_256_u8. rewrite H1.
  set (n := width (info_of img) * height (info_of img)) in *.
  assert (HN : len (data img) = n) by (rewrite (wf_data _ Hwf), H1; unfold n; ring).
  assert (Hmax : n <= u32_max) by (rewrite <- HN, (wf_data _ Hwf); apply (wf_full _ Hwf)). unfold u32_max in Hmax.
  rewrite imul_ok by ity_lia. rewrite bind_Ret, full_size_ok by exact Hwf. rewrite bind_Ret. rewrite H1. fold n. rewrite Z.mul_1_r.
  pose proof (Z.div_mod n 3) as D3. pose proof (Z.mod_pos_bound n 3) as B3.
  match goal with |- context [mwhile _ ?c ?b _] => set (cond := c); set (body := b) end.
  assert (G : forall fuel k d, 0 <= k -> 32 * k <= n / 3 -> len d = n / 3 -> n / 3 / 32 - k < Z.of_nat fuel ->
     mwhile fuel cond body (32 * k, d) = UB).
  { induction fuel as [|fuel IH]; intros k d Hk Hkn Hd Hf.
    - exfalso. assert (k <= n / 3 / 32) by (apply Z.div_le_lower_bound; lia). lia.
    - rewrite mwhile_S. unfold cond at 1. rewrite iadd_ok by ity_lia. rewrite !bind_Ret.
      assert (Hb : 32 * k + 34 <= n) by lia. replace (32 * k + 32 * 1 <=? n) with true by lia.
      unfold body at 1. rewrite !deinterleave_ok by (rewrite ?H1, ?HN; unfold u32_max; lia). rewrite !bind_Ret.
      rewrite idiv_ok by ity_lia. rewrite bind_Ret, Z.div_1_r. unfold avg_epu8. rewrite !map2_map_zrange.
      match goal with |- context [store d (32 * k) ?r] => set (rr := r) end.
      assert (Hrr : len rr = 32) by (unfold rr; rewrite len_map, len_zrange; lia).
      destruct (Z_le_dec (32 * k + 32) (n / 3)) as [Hle|Hgt].
      + destruct (store_ok d (32 * k) rr) as [d' [-> [Hl _]]]; [lia|lia|].
        rewrite bind_Ret, iadd_ok by ity_lia. rewrite bind_Ret. replace (32 * k + 32 * 1) with (32 * (k + 1)) by ring.
        apply IH; try lia. unfold len in *. lia.
      + unfold store. replace ((0 <=? 32 * k) && (32 * k + len rr <=? len d)) with false by lia. reflexivity. }
  rewrite (G _ 0); [reflexivity|lia|lia| |].
  - rewrite len_repeat. lia.
  - assert (n / 3 / 32 <= n) by (apply Z.div_le_upper_bound; lia). lia.
Qed.
Example C47_UB_example : wf (Image (Info 34 1 1 false) (repeat 7 34))
  /\ rgb_to_grayscale Release true (Image (Info 34 1 1 false) (repeat 7 34)) = UB.
Proof. split; [apply wfb_wf; reflexivity|]. vm_compute. reflexivity. Qed.
