(** * src/simd.rs (x86_64 with AVX2) *)
From Verif.Model Require Export Base Float Image.
Open Scope Z_scope.

(** ** The AVX2 intrinsics used, on registers of 32 bytes, lowest byte first.
    Trusted: that these definitions agree with Intel's description of the intrinsics.
    simd.rs:15-250. *)
Definition reg : Type := list Z.

(** little-endian bytes of a value
    No code of /repo. *)
Definition le_bytes (n : nat) (v : Z) : list Z := map (fun k => (v / 256 ^ Z.of_nat k) mod 256) (seq 0 n).
(** _mm256_set1_epi8
    simd.rs:20, 68. *)
Definition set1_epi8 (v : Z) : reg := repeat (cast U8 v) 32.
(** _mm256_setzero_si256
    simd.rs:24, 69, 78, 88. *)
Definition setzero : reg := repeat 0 32.
(** _mm256_set1_epi32
    simd.rs:25, 74-77. *)
Definition set1_epi32 (v : Z) : reg := concat (repeat (le_bytes 4 (cast U32 v)) 8).
(** _mm256_set_epi64x(e3, e2, e1, e0)
    simd.rs:82-86. *)
Definition set_epi64x (e3 e2 e1 e0 : Z) : reg :=
  le_bytes 8 (cast U64 e0) ++ le_bytes 8 (cast U64 e1) ++ le_bytes 8 (cast U64 e2) ++ le_bytes 8 (cast U64 e3).
(** lane-wise operation; no code of /repo *)
Fixpoint map2 {A B C} (f : A -> B -> C) (a : list A) (b : list B) : list C :=
  match a, b with x :: a', y :: b' => f x y :: map2 f a' b' | _, _ => [] end.
(** _mm256_blendv_epi8(a, b, mask): b where the high bit of the mask byte is set
    simd.rs:26, 91. *)
Definition blendv_epi8 (a b mask : reg) : reg :=
  map2 (fun ab m => if 128 <=? m then snd ab else fst ab) (map2 pair a b) mask.
(** _mm256_adds_epu8, _mm256_subs_epu8, _mm256_avg_epu8
    simd.rs:38, 109. *)
Definition adds_epu8 (a b : reg) : reg := map2 (fun x y => Z.min 255 (x + y)) a b.
(** _mm256_subs_epu8 (simd.rs:40, 111) *)
Definition subs_epu8 (a b : reg) : reg := map2 (fun x y => Z.max 0 (x - y)) a b.
(** _mm256_avg_epu8 (simd.rs:197-198, 232-233) *)
Definition avg_epu8 (a b : reg) : reg := map2 (fun x y => (x + y + 1) / 2) a b.
(** interleave two byte strings
    No code of /repo. *)
Definition interleave (a b : list Z) : list Z := concat (map2 (fun x y => [x; y]) a b).
(** _mm256_unpacklo_epi8 / _mm256_unpackhi_epi8: per 128-bit lane, the low / high 8 bytes
    simd.rs:236-237. *)
Definition bytes (a : reg) (i n : nat) : list Z := firstn n (skipn i a).
(** _mm256_unpacklo_epi8 (simd.rs:236) *)
Definition unpacklo_epi8 (a b : reg) : reg :=
  interleave (bytes a 0 8) (bytes b 0 8) ++ interleave (bytes a 16 8) (bytes b 16 8).
(** _mm256_unpackhi_epi8 (simd.rs:237) *)
Definition unpackhi_epi8 (a b : reg) : reg :=
  interleave (bytes a 8 8) (bytes b 8 8) ++ interleave (bytes a 24 8) (bytes b 24 8).

(** ** Raw memory accesses: undefined behaviour outside the buffer *)
(** _mm256_loadu_si256(v.as_ptr().offset(i))
    simd.rs:33, 105, 149-151, 175-178. *)
Definition loadu (v : list Z) (i : Z) : outcome reg :=
  if (0 <=? i) && (i + 32 <=? len v) then Ret (firstn 32 (skipn (Z.to_nat i) v)) else UB.
(** store of [r] at v.as_mut_ptr().offset(i)
    simd.rs:44, 114, 200. *)
Definition store (v : list Z) (i : Z) (r : list Z) : outcome (list Z) :=
  if (0 <=? i) && (i + len r <=? len v)
  then Ret (firstn (Z.to_nat i) v ++ r ++ skipn (Z.to_nat (i + len r)) v) else UB.
(** _mm256_storeu2_m128i(hiaddr, loaddr, r)
    simd.rs:240, 243. *)
Definition storeu2 (v : list Z) (hi lo : Z) (r : reg) : outcome (list Z) :=
  let! v := store v lo (bytes r 0 16) in store v hi (bytes r 16 16).

(** `while c(s) { s = body(s) }`; [fuel] bounds the number of iterations (running out of it
    is reported as [Panic]; the theorems that conclude [Ret] or [UB] show it does not happen)
    No code of /repo: Rust reference. *)
Fixpoint mwhile {S} (fuel : nat) (c : S -> outcome bool) (body : S -> outcome S) (s : S) : outcome S :=
  match fuel with
  | O => Panic
  | S n => let! b := c s in if b then let! s' := body s in mwhile n c body s' else Ret s
  end.

Section Simd.
  Context (p : profile).

  (** `(x as i16 + val).clamp(0, 255) as u8`: simd.rs:50, 120; tone.rs:34, 111 *)
  Definition add_clamped (val x : Z) : outcome Z :=
    let! s := iadd p I16 x val in let! c := iclamp s 0 255 in Ret (cast U8 c).

  (** the chunk loop of simd.rs:30-46 and 103-117: state (i, data) *)
  Definition adds_loop (input : image Z) (num_bytes step val : Z) (val_256 : reg) : outcome (Z * list Z) :=
    mwhile (S (Z.to_nat num_bytes))
      (fun '(i, _) => let! e := iadd p U32 i step in Ret (e <=? num_bytes))
      (fun '(i, d) =>
        let! chunk := loadu (data input) i in
        let res := if 0 <? val then adds_epu8 chunk val_256 else subs_epu8 chunk val_256 in
        let! d := store d i res in
        let! i := iadd p U32 i step in
        Ret (i, d)) (0, repeat 0 (Z.to_nat num_bytes)).

  (** simd.rs:15-58 *)
  Definition adds_256_u8 (input : image Z) (val : Z) : outcome (image Z) :=
    let inf := info_of input in
    let! num_bytes := full_size p inf in
    let! av := iabs p I16 val in
    let val_256 := set1_epi8 (cast I8 av) in
    let val_256 := if alpha inf then blendv_epi8 val_256 setzero (set1_epi32 (-2 * 2 ^ 30)) else val_256 in
    let! '(i, d) := adds_loop input num_bytes 32 val val_256 in
    let! d := if num_bytes <? i then
                let! a := isub p U32 i 32 in
                mfold (fun d j => let! x := vget (data input) j in let! v := add_clamped val x in vset d j v)
                      (zrange a num_bytes) d
              else Ret d in
    Ret (from_vec (width inf) (height inf) (channels inf) (alpha inf) d).

  (** simd.rs:71-91 *)
  Definition channel_mask (has_alpha : bool) (n : Z) : reg :=
    if has_alpha then
      if n =? 0 then set1_epi32 128 else if n =? 1 then set1_epi32 32768
      else if n =? 2 then set1_epi32 8388608 else if n =? 3 then set1_epi32 (-2147483648) else setzero
    else
      if n =? 0 then set_epi64x 0x80000080 0x800000800000 (-0x7FFFFF7FFFFF8000) 0x80000080000080
      else if n =? 1 then set_epi64x 0x8000008000 0x80000080000080 0x800000800000 (-0x7FFFFF7FFFFF8000)
      else if n =? 2 then set_epi64x 0x800000800000 (-0x7FFFFF7FFFFF8000) 0x80000080000080 0x800000800000
      else setzero.

  (** simd.rs:64-128 *)
  Definition adds_n_256_u8 (input : image Z) (val n : Z) : outcome (image Z) :=
    let inf := info_of input in
    let! num_bytes := full_size p inf in
    let! av := iabs p I16 val in
    let val_256 := blendv_epi8 setzero (set1_epi8 (cast I8 av)) (channel_mask (alpha inf) n) in
    let step := if alpha inf then 32 else 30 in
    let! '(i, d) := adds_loop input num_bytes step val val_256 in
    let! d := if num_bytes <? i then
                let! a := isub p U32 i step in
                let! js := zrange_step a num_bytes (channels inf) in
                mfold (fun d j =>
                  let! index := iadd p USIZE j n in
                  let! x := vget (data input) index in let! v := add_clamped val x in vset d index v) js d
              else Ret d in
    Ret (from_vec (width inf) (height inf) (channels inf) (alpha inf) d).

  (** simd.rs:134-154 and 160-181: channel [c] of the 32 pixels starting at sample [offset].
      Simplification: the three (four) vectors are built one after the other instead of
      together, the panics of the indexing are the same; the loads read the 32 pushed bytes. *)
  Definition deinterleave (input : image Z) (offset c : Z) : outcome reg :=
    let step := channels (info_of input) in
    let! range := imul p USIZE 32 step in
    let! stop := iadd p USIZE offset range in
    let! is := zrange_step offset stop step in
    mmap (fun i => let! k := iadd p USIZE i c in vget (data input) k) is.

  (** simd.rs:186-215 *)
  Definition avg_256_u8 (input : image Z) : outcome (image Z) :=
    let inf := info_of input in
    let ch := channels inf in
    let! chunk_size := imul p USIZE 32 ch in
    let! num_bytes := full_size p inf in
    let! '(i, d) := mwhile (S (Z.to_nat num_bytes))
      (fun '(i, _) => let! e := iadd p USIZE i chunk_size in Ret (e <=? num_bytes))
      (fun '(i, d) =>
        let! r := deinterleave input i 0 in
        let! g := deinterleave input i 1 in
        let! b := deinterleave input i 2 in
        let avg_rgb := avg_epu8 (avg_epu8 r g) b in
        let! o := idiv USIZE i ch in
        let! d := store d o avg_rgb in
        let! i := iadd p USIZE i chunk_size in
        Ret (i, d)) (0, repeat 0 (Z.to_nat (num_bytes / 3))) in
    let! d := if num_bytes <? i then
        let! a := isub p USIZE i chunk_size in
        let! js := zrange_step a num_bytes 3 in
        mfold (fun d j =>
          let! x0 := vget (data input) i in let! x1 := vget (data input) (i + 1) in let! x2 := vget (data input) (i + 2) in
          let! s := iadd p U8 x0 x1 in let! s := iadd p U8 s x2 in
          let! k := idiv USIZE j ch in
          vset d k (f32_to_int U8 (f32_round (f32_div (f32_of_Z s) (f32_of_Z 3))))) js d
      else Ret d in
    Ret (from_vec (width inf) (height inf) 1 (alpha inf) d).

  (** simd.rs:221-260 *)
  Definition avg_alpha_256_u8 (input : image Z) : outcome (image Z) :=
    let inf := info_of input in
    let ch := channels inf in
    let! chunk_size := imul p USIZE 32 ch in
    let! num_bytes := full_size p inf in
    let! '(i, d) := mwhile (S (Z.to_nat num_bytes))
      (fun '(i, _) => let! e := iadd p USIZE i chunk_size in Ret (e <=? num_bytes))
      (fun '(i, d) =>
        let! r := deinterleave input i 0 in
        let! g := deinterleave input i 1 in
        let! b := deinterleave input i 2 in
        let! a := deinterleave input i 3 in
        let avg_rgb := avg_epu8 (avg_epu8 r g) b in
        let unpacked_lo := unpacklo_epi8 avg_rgb a in
        let unpacked_hi := unpackhi_epi8 avg_rgb a in
        let! d := storeu2 d (i / 2 + 32) (i / 2) unpacked_lo in
        let! d := storeu2 d (i / 2 + 48) (i / 2 + 16) unpacked_hi in
        let! i := iadd p USIZE i chunk_size in
        Ret (i, d)) (0, repeat 0 (Z.to_nat (num_bytes / 2))) in
    let! d := if num_bytes <? i then
        let! a := isub p USIZE i chunk_size in
        let! js := zrange_step a num_bytes ch in
        mfold (fun d j =>
          let! x0 := vget (data input) i in let! x1 := vget (data input) (i + 1) in let! x2 := vget (data input) (i + 2) in
          let! s := iadd p U8 x0 x1 in let! s := iadd p U8 s x2 in
          let! d := vset d (j / 2) (f32_to_int U8 (f32_round (f32_div (f32_of_Z s) (f32_of_Z 3)))) in
          let! x3 := vget (data input) (i + 3) in
          vset d (j / 2 + 1) x3) js d
      else Ret d in
    Ret (from_vec (width inf) (height inf) 2 (alpha inf) d).

  (** simd.rs:265-271 *)
  Definition avg_checked_256_u8 (input : image Z) : outcome (image Z) :=
    if alpha (info_of input) then avg_alpha_256_u8 input else avg_256_u8 input.
End Simd.
