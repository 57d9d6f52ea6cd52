(** * C39-C43, C62: tone.rs and the byte-adding functions of simd.rs *)
From Verif.Proofs Require Import BaseL ImageL ImageOps ToneL SimdL FloatL FloatL2.
From Verif.Model Require Import Tone.
From Verif.Props Require Import ImageP.
Open Scope Z_scope.

Example ex_rgba_u8 : samples is_u8 ex_rgba.
Proof. unfold samples. rewrite Forall_forall. intros s Hs. cbn in Hs. unfold is_u8. intuition lia. Qed.

Definition has_channels (inf : info) : Prop := alpha inf = false \/ 0 < channels inf.

Lemma add_clamped_ok p b x : -32512 <= b <= 32512 -> is_u8 x -> add_clamped p b x = Ret (byte (x + b)).
Proof.
  intros Hb Hx. unfold is_u8 in Hx. unfold add_clamped. rewrite iadd_ok by ity_lia. cbn [bind].
  unfold iclamp. change (255 <? 0) with false. cbv iota. rewrite bind_Ret. f_equal.
  unfold byte. destruct (Z.ltb_spec (x + b) 0); [rewrite cast_id by ity_lia; lia|].
  destruct (Z.ltb_spec 255 (x + b)); rewrite cast_id by ity_lia; lia.
Qed.

(** ** C39 *)
Theorem C39_brightness p (img : image Z) b : wf img -> samples is_u8 img -> has_channels (info_of img) ->
  -255 <= b <= 255 ->
  exists out, brightness p false img b = Ret out /\ recolored (fun s => byte (s + b)) (fun a => a) img out.
Proof.
  intros Hwf Hu HC Hb. unfold brightness, iabs. rewrite arith_ok by ity_lia. cbn [bind].
  unfold check_in_range. cbn [n_ltb num_int].
  replace ((Z.abs b <? -255) || (255 <? Z.abs b)) with false by lia. rewrite bind_Ret.
  unfold brightness_rgb_norm. rewrite (table_256 _ _ (fun i => byte (i + b))).
  2: { intros i Hi. apply add_clamped_ok; [lia|exact Hi]. }
  rewrite bind_Ret. unfold samples in Hu. rewrite Forall_forall in Hu. apply map_if_alpha_recolored; auto.
  intros s Hs. apply (table_get (fun i => byte (i + b))). apply Hu. exact Hs.
Qed.
Theorem C39_rejects p simd (img : image Z) b : -32768 < b <= 32767 -> Z.abs b > 255 ->
  brightness p simd img b = Fail InvalidArgError.
Proof.
  intros Hb H. unfold brightness, iabs. rewrite arith_ok by ity_lia. cbn [bind].
  unfold check_in_range. cbn [n_ltb num_int].
  replace ((Z.abs b <? -255) || (255 <? Z.abs b)) with true by lia. reflexivity.
Qed.
Theorem C39_min_value simd (img : image Z) : brightness Debug simd img (-32768) = Panic
  /\ brightness Release simd img (-32768) = Fail InvalidArgError.
Proof. split; reflexivity. Qed.
Example C39_example : wf ex_rgba /\ samples is_u8 ex_rgba /\ has_channels (info_of ex_rgba)
  /\ match brightness Debug false ex_rgba (-5) with
     | Ret out => data out = [0;0;0;4; 0;1;2;8; 4;5;6;12; 8;9;10;16; 12;13;14;20; 16;17;18;24] | _ => False end.
Proof. split; [exact ex_rgba_wf|]. split; [exact ex_rgba_u8|]. split; [right; reflexivity|]. vm_compute. reflexivity. Qed.

(** ** C40 *)
Lemma val_reg v : -255 <= v <= 255 -> set1_epi8 (cast I8 (Z.abs v)) = repeat (Z.abs v) 32.
Proof.
  intros Hv. unfold set1_epi8. f_equal. unfold cast. cbn [lo hi I8 U8].
  pose proof (Z.mod_pos_bound (Z.abs v - -128) 256). pose proof (Z.div_mod (Z.abs v - -128) 256).
  change (127 - -128 + 1) with 256. change (255 - 0 + 1) with 256. rewrite Z.sub_0_r, Z.add_0_r.
  set (r := (Z.abs v - -128) mod 256) in *. set (q := (Z.abs v - -128) / 256) in *.
  replace (r + -128) with (Z.abs v + (- q) * 256) by lia. rewrite Z.mod_add by lia. apply Z.mod_small. lia.
Qed.
Lemma alpha_reg b : blendv_epi8 (repeat b 32) setzero (set1_epi32 (-2 * 2 ^ 30))
  = map (fun k => if k mod 4 =? 3 then 0 else b) (zrange 0 32).
Proof. vm_compute. reflexivity. Qed.

Lemma sat_byte b x : is_u8 x -> sat b x (Z.abs b) = byte (x + b).
Proof. unfold is_u8, sat, byte. intros. destruct (Z.ltb_spec 0 b); lia. Qed.
Lemma sat_0 b x : is_u8 x -> sat b x 0 = x.
Proof. unfold is_u8, sat. intros. destruct (Z.ltb_spec 0 b); lia. Qed.

Lemma nth_u8 (img : image Z) k : samples is_u8 img -> 0 <= k < len (data img) -> is_u8 (nth (Z.to_nat k) (data img) 0).
Proof.
  intros Hu Hk. unfold samples in Hu. rewrite Forall_forall in Hu. apply Hu, nth_In. unfold len in Hk. lia.
Qed.

Lemma mod_mod_mul k a b : 0 < a -> 0 < b -> (k mod (a * b)) mod a = k mod a.
Proof.
  intros Ha Hb. rewrite Z.rem_mul_r by lia. rewrite Z.mul_comm, Z.mod_add by lia. apply Z.mod_mod. lia.
Qed.

Lemma check_bias p v : -255 <= v <= 255 -> iabs p I16 v = Ret (Z.abs v)
  /\ check_in_range (num_int I16) (Z.abs v) (-255) 255 = Ret tt.
Proof.
  intros Hv. unfold iabs. rewrite arith_ok by ity_lia. split; [reflexivity|].
  unfold check_in_range. cbn [n_ltb num_int]. replace ((Z.abs v <? -255) || (255 <? Z.abs v)) with false by lia. reflexivity.
Qed.

(** what the AVX2 path computes: whole chunks of 32 samples are processed, with every fourth
    sample kept when there is alpha; the remaining samples become 0 *)
Theorem C40_simd_exact p (img : image Z) b : wf img -> samples is_u8 img -> -255 <= b <= 255 ->
  len (data img) + 32 <= u32_max ->
  exists out, brightness p true img b = Ret out /\ info_of out = info_of img /\ len (data out) = len (data img)
    /\ forall k, 0 <= k < len (data img) ->
       nth (Z.to_nat k) (data out) 0
       = let s := nth (Z.to_nat k) (data img) 0 in
         if k <? 32 * (len (data img) / 32)
         then if alpha (info_of img) && (k mod 4 =? 3) then s else byte (s + b)
         else 0.
Proof.
  intros Hwf Hu Hb Hbig. unfold brightness. destruct (check_bias p b Hb) as [Ea Ec]. rewrite Ea, bind_Ret, Ec, bind_Ret.
  unfold adds_256_u8. rewrite full_size_ok by exact Hwf. rewrite bind_Ret. rewrite Ea, bind_Ret.
  rewrite <- (wf_data _ Hwf). cbv zeta. rewrite val_reg by exact Hb. rewrite alpha_reg.
  match goal with |- context [adds_loop p img _ 32 b ?v] => set (vr := v) end.
  set (N := len (data img)) in *.
  assert (Hvl : length vr = 32%nat) by (unfold vr; destruct (alpha _); [rewrite map_length, zrange_length; reflexivity|apply repeat_length]).
  pose proof (len_nonneg (data img)) as HN0. fold N in HN0.
  pose proof (Z.mod_pos_bound N 32) as HNb. pose proof (Z.div_mod N 32) as HNd.
  unfold N at 1. rewrite (adds_loop_end p img Hwf b vr 32) by (unfold N in *; lia). rewrite bind_Ret. fold N.
  replace (N <? 32 * (N / 32)) with false by lia. rewrite bind_Ret.
  eexists. split; [reflexivity|]. unfold from_vec. cbn [info_of data]. split; [destruct (info_of img); reflexivity|].
  split. { unfold chunk_state. rewrite len_map, len_zrange; [fold N|]; lia. }
  intros k Hk. cbv zeta. unfold chunk_state. fold N. rewrite nth_map_zrange by lia. rewrite Z.add_0_l.
  pose proof (nth_u8 img k Hu Hk) as Hx. fold (xv img k) in Hx |- *.
  destruct (Z.ltb_spec k (32 * (N / 32))) as [Hlt|Hge].
  - assert (Ev : vv vr (k mod 32) = if alpha (info_of img) && (k mod 4 =? 3) then 0 else Z.abs b).
    { unfold vv, vr. pose proof (Z.mod_pos_bound k 32). destruct (alpha (info_of img)); cbn [andb].
      - rewrite nth_map_zrange by lia. rewrite Z.add_0_l. change 32 with (4 * 8). rewrite (mod_mod_mul k 4 8) by lia. reflexivity.
      - apply nth_repeat'. lia. }
    rewrite Ev. destruct (alpha (info_of img) && (k mod 4 =? 3)); [apply sat_0|apply sat_byte]; exact Hx.
  - replace (k <? 32 * (N / 32) + (32 - 32)) with false by lia. rewrite andb_false_r. reflexivity.
Qed.

(** it agrees with the scalar path when the buffer is a multiple of 32 bytes (and the alpha
    sample, if any, is the fourth) *)
Theorem C40_simd_agrees p (img : image Z) b : wf img -> samples is_u8 img -> -255 <= b <= 255 ->
  len (data img) + 32 <= u32_max -> len (data img) mod 32 = 0 ->
  (alpha (info_of img) = true -> channels (info_of img) = 4) ->
  brightness p true img b = brightness p false img b.
Proof.
  intros Hwf Hu Hb Hbig H32 Ha.
  assert (HC : has_channels (info_of img)).
  { unfold has_channels. destruct (alpha (info_of img)); [right; rewrite Ha; lia|left; reflexivity]. }
  destruct (C39_brightness p img b Hwf Hu HC Hb) as [o1 [-> R1]].
  destruct (C40_simd_exact p img b Hwf Hu Hb Hbig) as [o2 [-> [I2 [L2 D2]]]]. f_equal.
  apply (recolored_unique (fun s => byte (s + b)) (fun a => a) img); auto. clear o1 R1.
  assert (Hw2 : wf o2) by (destruct Hwf; constructor; rewrite ?I2, ?L2; auto).
  apply data_recolored; auto. intros j Hj.
  assert (Hj2 : (Z.to_nat j < length (data o2))%nat) by (unfold len in *; lia).
  assert (Hj1 : (Z.to_nat j < length (data img))%nat) by (unfold len in *; lia).
  rewrite (nth_error_nth' (data o2) 0 Hj2), (nth_error_nth' (data img) 0 Hj1). cbn [option_map]. f_equal.
  rewrite D2 by exact Hj. cbv zeta. pose proof (Z.div_mod (len (data img)) 32).
  replace (j <? 32 * (len (data img) / 32)) with true by lia. unfold is_alpha.
  destruct (alpha (info_of img)); cbn [andb]; [|reflexivity]. rewrite Ha by reflexivity. reflexivity.
Qed.

(** the documented equality is false: the samples after the last whole chunk turn black, so an
    image of fewer than 32 samples turns black entirely *)
Theorem C40_simd_refuted p (img : image Z) b : wf img -> samples is_u8 img -> -255 <= b <= 255 ->
  len (data img) < 32 ->
  exists out, brightness p true img b = Ret out /\ info_of out = info_of img /\ data out = repeat 0 (length (data img)).
Proof.
  intros Hwf Hu Hb Hl. destruct (C40_simd_exact p img b Hwf Hu Hb) as [out [E [I [L D]]]]; [unfold u32_max; lia|].
  exists out. split; [exact E|]. split; [exact I|]. apply list_ext with (d := 0).
  - rewrite repeat_length. unfold len in L. lia.
  - intros i Hi. unfold len in *. rewrite nth_repeat' by lia. replace i with (Z.to_nat (Z.of_nat i)) by lia.
    rewrite D by lia. cbv zeta. rewrite Z.div_small by lia. replace (Z.of_nat i <? 32 * 0) with false by lia. reflexivity.
Qed.
Example C40_refuted_example :
  match brightness Debug true ex_rgba 100, brightness Debug false ex_rgba 100 with
  | Ret a, Ret b => data a = repeat 0 24 /\ nth 0 (data b) 0 = 101 | _, _ => False end.
Proof. vm_compute. auto. Qed.
(** buffers within 32 bytes of 2^32: overflow of the position, then undefined behaviour in release *)
Theorem C40_huge p (img : image Z) b : wf img -> -255 <= b <= 255 ->
  32 * (len (data img) / 32 + 1) > u32_max ->
  brightness p true img b = match p with Debug => Panic | Release => UB end.
Proof.
  intros Hwf Hb Hbig. unfold brightness. destruct (check_bias p b Hb) as [Ea Ec]. rewrite Ea, bind_Ret, Ec, bind_Ret.
  unfold adds_256_u8. rewrite full_size_ok by exact Hwf. rewrite bind_Ret. rewrite Ea, bind_Ret.
  rewrite <- (wf_data _ Hwf). cbv zeta. rewrite val_reg by exact Hb. rewrite alpha_reg.
  match goal with |- context [adds_loop p img _ 32 b ?v] => set (vr := v) end.
  assert (Hvl : length vr = 32%nat) by (unfold vr; destruct (alpha _); [rewrite map_length, zrange_length; reflexivity|apply repeat_length]).
  pose proof (Z.mod_pos_bound (len (data img)) 32).
  rewrite (adds_loop_huge p img Hwf b vr 32) by lia. destruct p; reflexivity.
Qed.

(** ** C62: adding to one channel *)
(** the samples that are changed: those of channel n, if n is one of the first four (three)
    channels and there is (is not) alpha *)
Definition in_channel (has_alpha : bool) (n k : Z) : bool :=
  if has_alpha then (n <=? 3) && (k mod 4 =? n) else (n <=? 2) && (k mod 3 =? n).
Definition chunk_bytes (has_alpha : bool) : Z := if has_alpha then 32 else 30.

Lemma channel_reg a n b : 0 <= n ->
  blendv_epi8 setzero (repeat b 32) (channel_mask a n)
  = map (fun k => if (k <? chunk_bytes a) && in_channel a n k then b else 0) (zrange 0 32).
Proof.
  intros Hn. unfold channel_mask, in_channel, chunk_bytes. destruct a.
  - destruct (Z.eqb_spec n 0) as [->|H0]; [vm_compute; reflexivity|].
    destruct (Z.eqb_spec n 1) as [->|H1]; [vm_compute; reflexivity|].
    destruct (Z.eqb_spec n 2) as [->|H2]; [vm_compute; reflexivity|].
    destruct (Z.eqb_spec n 3) as [->|H3]; [vm_compute; reflexivity|].
    replace (n <=? 3) with false by lia. vm_compute. reflexivity.
  - destruct (Z.eqb_spec n 0) as [->|H0]; [vm_compute; reflexivity|].
    destruct (Z.eqb_spec n 1) as [->|H1]; [vm_compute; reflexivity|].
    destruct (Z.eqb_spec n 2) as [->|H2]; [vm_compute; reflexivity|].
    replace (n <=? 2) with false by lia. vm_compute. reflexivity.
Qed.

Section AddsN.
  Context (p : profile) (img : image Z) (val n : Z).
  Context (Hwf : wf img) (Hu : samples is_u8 img) (Hv : -255 <= val <= 255) (Hn : 0 <= n).
  Notation N := (len (data img)).
  Notation a := (alpha (info_of img)).
  Notation s := (chunk_bytes (alpha (info_of img))).

  Theorem C62_adds_n : N + 32 <= u32_max -> N < s \/ 32 - s <= N mod s ->
    exists out, adds_n_256_u8 p img val n = Ret out /\ info_of out = info_of img /\ len (data out) = N
      /\ forall k, 0 <= k < N ->
         nth (Z.to_nat k) (data out) 0
         = let x := nth (Z.to_nat k) (data img) 0 in
           if k <? s * (N / s) then if in_channel a n k then byte (x + val) else x
           else if (s <=? N) && (k <? s * (N / s) + (32 - s)) then x else 0.
  Proof.
    intros Hbig Hmod. unfold adds_n_256_u8. rewrite full_size_ok by exact Hwf. rewrite bind_Ret.
    destruct (check_bias p val Hv) as [Ea _]. rewrite Ea, bind_Ret.
    rewrite <- (wf_data _ Hwf). cbv zeta. rewrite val_reg by exact Hv. rewrite channel_reg by exact Hn.
    fold (chunk_bytes a).
    match goal with |- context [adds_loop p img _ _ val ?v] => set (vr := v) end.
    assert (Hvl : length vr = 32%nat) by (unfold vr; rewrite map_length, zrange_length; reflexivity).
    assert (Hs : 30 <= s <= 32) by (unfold chunk_bytes; destruct a; lia).
    pose proof (len_nonneg (data img)) as HN0.
    pose proof (Z.mod_pos_bound N s) as HNb. pose proof (Z.div_mod N s) as HNd.
    assert (HNp : 0 <= N / s) by (apply Z.div_pos; lia).
    rewrite (adds_loop_end p img Hwf val vr s) by lia. rewrite bind_Ret.
    replace (N <? s * (N / s)) with false by lia. rewrite bind_Ret.
    eexists. split; [reflexivity|]. unfold from_vec. cbn [info_of data]. split; [destruct (info_of img); reflexivity|].
    split. { unfold chunk_state. rewrite len_map, len_zrange; lia. }
    intros k Hk. cbv zeta. unfold chunk_state. rewrite nth_map_zrange by lia. rewrite Z.add_0_l.
    pose proof (nth_u8 img k Hu Hk) as Hx. fold (xv img k) in Hx |- *.
    assert (Ev : forall j, 0 <= j < 32 -> vv vr j = if (j <? s) && in_channel a n j then Z.abs val else 0).
    { intros j Hj. unfold vv, vr. rewrite nth_map_zrange by lia. rewrite Z.add_0_l. reflexivity. }
    destruct (Z.ltb_spec k (s * (N / s))) as [Hlt|Hge].
    - pose proof (Z.mod_pos_bound k s). rewrite Ev by lia. replace (k mod s <? s) with true by lia. cbn [andb].
      assert (Ei : in_channel a n (k mod s) = in_channel a n k).
      { unfold in_channel, chunk_bytes. destruct a; [change 32 with (4 * 8)|change 30 with (3 * 10)]; rewrite mod_mod_mul by lia; reflexivity. }
      rewrite Ei. destruct (in_channel a n k); [apply sat_byte|apply sat_0]; exact Hx.
    - assert (E0 : (0 <? N / s) = (s <=? N)).
      { destruct (Z.leb_spec s N) as [H|H].
        - assert (1 <= N / s) by (apply Z.div_le_lower_bound; lia). lia.
        - rewrite Z.div_small by lia. reflexivity. }
      rewrite E0. destruct ((s <=? N) && (k <? s * (N / s) + (32 - s))) eqn:E; [|reflexivity].
      rewrite Ev by lia. replace (k - s * (N / s) + s <? s) with false by lia. apply sat_0. exact Hx.
  Qed.

  (** without alpha, 30 bytes per step but 32 bytes per access: when fewer than 2 bytes are left
      after the last step, that step reads and writes outside the buffers *)
  Theorem C62_adds_n_UB : a = false -> 30 <= N -> N mod 30 < 2 -> adds_n_256_u8 p img val n = UB.
  Proof.
    intros Ha H30 Hmod. unfold adds_n_256_u8. rewrite full_size_ok by exact Hwf. rewrite bind_Ret.
    destruct (check_bias p val Hv) as [Ea _]. rewrite Ea, bind_Ret.
    rewrite <- (wf_data _ Hwf). cbv zeta. rewrite val_reg by exact Hv. rewrite channel_reg by exact Hn. rewrite Ha.
    match goal with |- context [adds_loop p img _ _ val ?v] => set (vr := v) end.
    assert (Hvl : length vr = 32%nat) by (unfold vr; rewrite map_length, zrange_length; reflexivity).
    rewrite (adds_loop_UB p img Hwf val vr 30) by lia. reflexivity.
  Qed.
End AddsN.

(** the documentation says that an n that is not a channel adds to all channels; it adds to none *)
Theorem C62_invalid_n_refuted p (img : image Z) val n : wf img -> samples is_u8 img -> -255 <= val <= 255 ->
  alpha (info_of img) = true -> len (data img) mod 32 = 0 -> len (data img) + 32 <= u32_max -> 4 <= n ->
  adds_n_256_u8 p img val n = Ret img.
Proof.
  intros Hwf Hu Hv Ha H32 Hbig Hn.
  destruct (C62_adds_n p img val n Hwf Hu Hv) as [out [E [I [L D]]]]; try lia.
  { rewrite Ha. cbn. lia. }
  rewrite E. f_equal. apply image_eq; [exact I|]. apply list_ext with (d := 0); [unfold len in L; lia|].
  intros j Hj. replace j with (Z.to_nat (Z.of_nat j)) by lia. rewrite D by (unfold len in *; lia). cbv zeta. rewrite Ha.
  unfold chunk_bytes, in_channel. pose proof (Z.div_mod (len (data img)) 32).
  replace (Z.of_nat j <? 32 * (len (data img) / 32)) with true by (unfold len in *; lia).
  replace (n <=? 3) with false by lia. reflexivity.
Qed.
Definition ex_8x1 : image Z := Image (Info 8 1 4 true) (map (fun k => 7 * k) (zrange 0 32)).
Example ex_8x1_wf : wf ex_8x1. Proof. apply wfb_wf. reflexivity. Qed.
Lemma u8b (img : image Z) : forallb (fun s => (0 <=? s) && (s <=? 255)) (data img) = true -> samples is_u8 img.
Proof. intros H. rewrite forallb_forall in H. apply Forall_forall. intros s Hs. specialize (H s Hs). unfold is_u8. lia. Qed.
Example ex_8x1_u8 : samples is_u8 ex_8x1. Proof. apply u8b. reflexivity. Qed.
Example C62_example : wf ex_8x1 /\ samples is_u8 ex_8x1 /\ alpha (info_of ex_8x1) = true
  /\ len (data ex_8x1) mod 32 = 0
  /\ match adds_n_256_u8 Debug ex_8x1 50 1 with Ret out => firstn 8 (data out) = [0;57;14;21; 28;85;42;49] | _ => False end
  /\ adds_n_256_u8 Debug ex_8x1 50 4 = Ret ex_8x1.
Proof.
  split; [exact ex_8x1_wf|]. split; [exact ex_8x1_u8|]. split; [reflexivity|]. split; [reflexivity|].
  split; vm_compute; reflexivity.
Qed.
Example C40_agrees_example : (alpha (info_of ex_8x1) = true -> channels (info_of ex_8x1) = 4)
  /\ len (data ex_8x1) + 32 <= u32_max
  /\ match brightness Debug true ex_8x1 50 with Ret out => firstn 8 (data out) = [50;57;64;21; 78;85;92;49] | _ => False end.
Proof. split; [reflexivity|]. split; [vm_compute; discriminate|]. vm_compute. reflexivity. Qed.
