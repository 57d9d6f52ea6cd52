(** * src/util/math.rs and the kernels of src/util/constants.rs *)
From Verif.Model Require Export Base Float Image.
Open Scope Z_scope.

Section MathM.
  Context (p : profile).

  (** math.rs:17-21 (and 38-42): the accumulation loop shared by the two functions below *)
  Definition vector_mul_loop {T} (N : number T) (mat input : list T) (rows : Z) (out : list T)
    : outcome (list T) :=
    mfold (fun out i =>
      mfold (fun out j =>
        let! ri := imul p USIZE rows i in
        let! k := iadd p USIZE ri j in
        let! m := vget mat k in
        let! v := vget input j in
        let! mv := n_mul N p m v in
        let! o := vget out i in
        let! o' := n_add N p o mv in
        vset out i o') (zrange 0 rows) out) (zrange 0 rows) out.

  (** math.rs:9-24 *)
  Definition vector_mul {T} (N : number T) (mat input : list T) : outcome (list T) :=
    let rows := len input in
    let! cols := idiv USIZE (len mat) rows in
    check_equal_Z cols rows ;!
    vector_mul_loop N mat input rows (repeat (n_zero N) (length input)).

  (** math.rs:27-45; returns the new contents of `output` (whose old contents are dropped) *)
  Definition vector_mul_mut {T} (N : number T) (mat input output : list T) : outcome (list T) :=
    let rows := len input in
    let! cols := idiv USIZE (len mat) rows in
    check_equal_Z cols rows ;!
    let! out := mfold (fun out _ => Ret (out ++ [n_zero N])) (zrange 0 rows) [] in
    vector_mul_loop N mat input rows out.

  (** math.rs:48-69.  [svd size data] is rulinalg's `Matrix::svd` on the row-major square
      matrix [data] (an oracle): the row-major data of (s, u, v), or an error. *)
  Definition separate_kernel (svd : Z -> list f32 -> outcome (list f32 * list f32 * list f32))
      (kernel : list f32) : outcome (option (list f32 * list f32)) :=
    let sz := f32_to_int USIZE (f32_sqrt (f32_of_Z (len kernel))) in
    if negb (len kernel =? sz * sz) then Panic else
    let! '(s, u, v) := unwrap (svd sz kernel) in
    let! s0 := vget s 0 in
    if f32_neb s0 f32_0 then
      let! sep := mfold (fun (ok : bool) i =>
                    if ok then let! d := vget s (i * sz + i) in Ret (negb (f32_neb d f32_0))
                    else Ret false) (zrange 1 sz) true in
      if sep then
        let scalar := f32_sqrt s0 in
        let! vk := mmap (fun i => let! a := vget u (i * sz) in Ret (f32_mul a scalar)) (zrange 0 sz) in
        let! hk := mmap (fun i => let! a := vget v (i * sz) in Ret (f32_mul a scalar)) (zrange 0 sz) in
        Ret (Some (vk, hk))
      else Ret None
    else Ret None.

  (** math.rs:72-84 *)
  Definition max_3 (x y z : f32) : f32 :=
    if f32_gtb x y then (if f32_gtb x z then x else z)
    else if f32_gtb y z then y else z.
  (** math.rs:87-99 *)
  Definition min_3 (x y z : f32) : f32 :=
    if f32_ltb x y then (if f32_ltb x z then x else z)
    else if f32_ltb y z then y else z.
  (** math.rs:102-112 *)
  Definition max_4 (w x y z : f32) : f32 :=
    if f32_gtb w x then max_3 w y z
    else if f32_gtb x y then max_3 w x z
    else if f32_gtb y z then max_3 w x y
    else max_3 x y z.
  (** math.rs:115-125 *)
  Definition min_4 (w x y z : f32) : f32 :=
    if f32_ltb w x then min_3 w y z
    else if f32_ltb x y then min_3 w x z
    else if f32_ltb y z then min_3 w x y
    else min_3 x y z.

  (** math.rs:142-144 (and 162-164, 187-189, 210-212): one kernel tap, all channels *)
  Definition kernel_tap (input : subimage f32) (kernel : list f32) (i : Z) (out : list f32)
    : outcome (list f32) :=
    mfold (fun out j =>
      let! k := vget kernel i in
      let! px := sub_index input i in
      let! v := vget px j in
      let! o := vget out j in
      vset out j (f32_add o (f32_mul k v))) (zrange 0 (len out)) out.

  (** math.rs:129-148 (sequential build); [output] is the scratch vector of the caller *)
  Definition apply_1d_kernel_seq (input : subimage f32) (output kernel : list f32)
    : outcome (list f32) :=
    let! sz := size p (sub_info input) in
    check_odd p (num_int USIZE) (len kernel) ;!
    check_equal_Z (len kernel) sz ;!
    let! out := mfold (fun out _ => Ret (out ++ [f32_0])) (zrange 0 (channels (sub_info input))) [] in
    mfold (fun out i => kernel_tap input kernel i out) (zrange 0 sz) out.

  (** math.rs:152-168 (rayon build) *)
  Definition apply_1d_kernel_par (input : subimage f32) (kernel : list f32)
    : outcome (list f32) :=
    let! sz := size p (sub_info input) in
    check_odd p (num_int USIZE) (len kernel) ;!
    check_equal_Z (len kernel) sz ;!
    let out := repeat f32_0 (Z.to_nat (channels (sub_info input))) in
    mfold (fun out i => kernel_tap input kernel i out) (zrange 0 sz) out.

  (** math.rs:184-191 (and 207-214) *)
  Definition apply_2d_loop (input : subimage f32) (kernel : list f32) (sz : Z) (out : list f32)
    : outcome (list f32) :=
    mfold (fun out y =>
      mfold (fun out x =>
        let! a := imul p USIZE y sz in
        let! ix := iadd p USIZE a x in
        kernel_tap input kernel ix out) (zrange 0 sz) out) (zrange 0 sz) out.

  (** math.rs:172-194 (sequential build) *)
  Definition apply_2d_kernel_seq (input : subimage f32) (output kernel : list f32)
    : outcome (list f32) :=
    let sz := width (sub_info input) in
    check_odd p (num_int USIZE) (len kernel) ;!
    let! sq := imul p USIZE sz sz in
    check_equal_Z (len kernel) sq ;!
    let! out := mfold (fun out _ => Ret (out ++ [f32_0])) (zrange 0 (channels (sub_info input))) [] in
    apply_2d_loop input kernel sz out.

  (** math.rs:198-217 (rayon build) *)
  Definition apply_2d_kernel_par (input : subimage f32) (kernel : list f32)
    : outcome (list f32) :=
    let sz := width (sub_info input) in
    check_odd p (num_int USIZE) (len kernel) ;!
    let! sq := imul p USIZE sz sz in
    check_equal_Z (len kernel) sq ;!
    let out := repeat f32_0 (Z.to_nat (channels (sub_info input))) in
    apply_2d_loop input kernel sz out.

  (** math.rs:220-225 *)
  Definition distance (x1 y1 x2 y2 : Z) : f32 :=
    let xd := f32_sub (f32_of_Z x1) (f32_of_Z x2) in
    let yd := f32_sub (f32_of_Z y1) (f32_of_Z y2) in
    f32_sqrt (f32_add (f32_mul xd xd) (f32_mul yd yd)).

  Context (lm : libm).
  Notation F := f32_of_Z.

  (** math.rs:228-234 *)
  Definition gaussian_fn (x sigma : f32) : outcome f32 :=
    check_non_neg num_f32 sigma ;!
    let ss := f32_mul sigma sigma in
    Ret (f32_mul (f32_div f32_1 (f32_mul (f32_mul (F 2) f32_pi) ss))
                 (powf lm f32_e (f32_div (f32_neg (f32_mul x x)) (f32_mul (F 2) ss)))).

  (** math.rs:267-273 *)
  Definition clamp_zero (x : f32) : f32 := if f32_leb x f32_0 then f32_0 else x.

  (** math.rs:237-242 *)
  Definition cubic_weighting_fn (x : f32) : f32 :=
    let cube a := powf lm (clamp_zero a) (F 3) in
    f32_mul (f32_div f32_1 (F 6))
      (f32_sub (f32_add (f32_sub (cube (f32_add x (F 2)))
                                 (f32_mul (F 4) (cube (f32_add x f32_1))))
                        (f32_mul (F 6) (cube x)))
               (f32_mul (F 4) (cube (f32_sub x f32_1)))).

  (** math.rs:245-253 *)
  Definition xyz_to_lab_fn (num : f32) : f32 :=
    let d := f32_div (F 6) (F 29) in
    if f32_gtb num (powf lm d (F 3)) then powf lm num (f32_div f32_1 (F 3))
    else f32_add (f32_div num (f32_mul (f32_mul (F 3) d) d)) (f32_div (F 4) (F 29)).

  (** math.rs:256-264 *)
  Definition lab_to_xyz_fn (num : f32) : f32 :=
    let d := f32_div (F 6) (F 29) in
    if f32_gtb num d then powf lm num (F 3)
    else f32_mul (f32_mul (f32_mul (F 3) d) d) (f32_sub num (f32_div (F 4) (F 29))).

  (** math.rs:276-284 *)
  Definition sinc_norm (x : f32) : f32 :=
    if f32_eqb x f32_0 then f32_1
    else let pi_x := f32_mul f32_pi x in f32_div (sinf lm pi_x) pi_x.

  (** math.rs:287-293 *)
  Definition lanczos_kernel (x a : f32) : f32 :=
    if f32_gtb x (f32_neg a) && f32_ltb x a
    then f32_mul (sinc_norm x) (sinc_norm (f32_div x a)) else f32_0.
End MathM.

(** ** src/util/constants.rs *)

Section Constants.
  Notation q16 n := (f32_div (f32_of_Z n) (f32_of_Z 16)).
  Notation q4 n := (f32_div (f32_of_Z n) (f32_of_Z 4)).
  Notation q256 n := (f32_div (f32_of_Z n) (f32_of_Z 256)).
  (** constants.rs:8 *)
  Definition GAMMA : f32 := f32_dec 22 1.
  (** constants.rs:11-13 *)
  Definition SRGB_TO_XYZ_MAT : list f32 := map (fun n => f32_dec n 7)
    [4124564; 3575761; 1804375; 2126729; 7151522; 721750; 193339; 1191920; 9503041].
  (** constants.rs:16-18 *)
  Definition XYZ_TO_SRGB_MAT : list f32 := map (fun n => f32_dec n 7)
    [32404542; -15371385; -4985314; -9692660; 18760108; 415560; 556434; -2040259; 10572252].
  (** constants.rs:25-27 *)
  Definition K_GAUSSIAN_BLUR_2D_3 : list f32 := map (fun n => q16 n) [1; 2; 1; 2; 4; 2; 1; 2; 1].
  (** constants.rs:30 *)
  Definition K_GAUSSIAN_BLUR_1D_3 : list f32 := map (fun n => q4 n) [1; 2; 1].
  (** constants.rs:33-37 *)
  Definition K_GAUSSIAN_BLUR_2D_5 : list f32 := map (fun n => q256 n)
    [1; 4; 6; 4; 1; 4; 16; 24; 16; 4; 6; 24; 36; 24; 6; 4; 16; 24; 16; 4; 1; 4; 6; 4; 1].
  (** constants.rs:40 *)
  Definition K_GAUSSIAN_BLUR_1D_5 : list f32 := map (fun n => q16 n) [1; 4; 6; 4; 1].
  (** constants.rs:43-47 *)
  Definition K_UNSHARP_MASKING : list f32 := map (fun n => q256 n)
    [-1; -4; -6; -4; -1; -4; -16; -24; -16; -4; -6; -24; 476; -24; -6;
     -4; -16; -24; -16; -4; -1; -4; -6; -4; -1].
  (** constants.rs:51-53 *)
  Definition K_SHARPEN : list f32 := map f32_of_Z [0; -1; 0; -1; 5; -1; 0; -1; 0].
  (** constants.rs:56, 59 *)
  Definition K_SOBEL_1D_VERT : list f32 := map f32_of_Z [1; 2; 1].
  (** util/constants.rs:59 *)
  Definition K_SOBEL_1D_HORZ : list f32 := map f32_of_Z [-1; 0; 1].
  (** constants.rs:62, 65 *)
  Definition K_PREWITT_1D_VERT : list f32 := map f32_of_Z [1; 1; 1].
  (** util/constants.rs:65 *)
  Definition K_PREWITT_1D_HORZ : list f32 := map f32_of_Z [-1; 0; 1].
  (** constants.rs:68 *)
  Definition K_LAPLACIAN : list f32 := map f32_of_Z [0; -1; 0; -1; 4; -1; 0; -1; 0].
End Constants.
