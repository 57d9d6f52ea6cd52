(** * src/filter/mod.rs and src/filter/edge.rs *)
From Verif.Model Require Export Base Float Image MathM Util Par Convert.
Open Scope Z_scope.

(** Which build runs.  [Seq]: without the feature `rayon`.  [Par sched]: with it; [sched n] is the
    order in which the tasks of the n-th parallel loop take effect (see Par.v).  The filters below
    take the number [n] of their first parallel loop.
    util/math.rs:128-215, filter/mod.rs:26-70, filter/bilateral.rs:10-110: the `cfg` branches on the feature rayon. *)
Inductive build : Type := Seq | Par (sched : nat -> list Z).

(** src/enums.rs:10-25 *)
Inductive thresh : Type := Binary | BinaryInv | Trunc | ToZero | ToZeroInv.

(** f32::partial_cmp
    edge.rs:60-61. *)
Definition f32_partial_cmp (x y : f32) : option comparison := Bcompare x y.

Section Filter.
  Context (p : profile) (b : build).
  Notation F := f32_of_Z.

  (** filter/mod.rs:27-43 (sequential) and 48-62 (rayon) *)
  Definition filter_1d (n : nat) (input : image f32) (kernel : list f32) (is_vert : bool)
    : outcome (image f32) :=
    check_odd p (num_int USIZE) (len kernel) ;!
    let inf := info_of input in
    let nb x y := get_neighborhood_1d p input x y (cast U32 (len kernel)) is_vert in
    match b with
    | Seq =>
        let! output := blank p num_f32 inf in
        let! '(output, _) :=
          mfold (fun '(output, p_out) y => mfold (fun '(output, p_out) x =>
              let! s := nb x y in
              let! p_out := apply_1d_kernel_seq p s p_out kernel in
              let! output := set_pixel p output x y p_out in
              Ret (output, p_out)) (zrange 0 (width inf)) (output, p_out))
            (zrange 0 (height inf)) (output, []) in
        Ret output
    | Par sched =>
        let! sz := size p inf in
        let! d := par_collect (sched n) sz (fun i =>
            let! '(x, y) := get_2d_coords p i (width inf) in
            let! s := nb x y in
            unwrap (apply_1d_kernel_par p s kernel)) in
        from_vec_of_vec p (width inf) (height inf) (channels inf) (alpha inf) d
    end.

  (** filter/mod.rs:65-72 *)
  Definition separable_filter (n : nat) (input : image f32) (vert_kernel horz_kernel : list f32)
    : outcome (image f32) :=
    check_odd p (num_int USIZE) (len vert_kernel) ;!
    check_odd p (num_int USIZE) (len horz_kernel) ;!
    check_equal_Z (len vert_kernel) (len horz_kernel) ;!
    let! vertical := filter_1d n input vert_kernel true in
    filter_1d (S n) vertical horz_kernel false.

  (** `(kernel.len() as f32).sqrt() as u32`, filter/mod.rs:80, 101 *)
  Definition kernel_side (l : Z) : Z := f32_to_int U32 (f32_sqrt (F l)).

  (** filter/mod.rs:76-93 (sequential) and 97-113 (rayon) *)
  Definition unseparable_filter (n : nat) (input : image f32) (kernel : list f32)
    : outcome (image f32) :=
    check_odd p (num_int USIZE) (len kernel) ;!
    check_square (F (len kernel)) ;!
    let sz := kernel_side (len kernel) in
    let inf := info_of input in
    match b with
    | Seq =>
        let! output := blank p num_f32 inf in
        let! '(output, _) :=
          mfold (fun '(output, p_out) y => mfold (fun '(output, p_out) x =>
              let! s := get_neighborhood_2d p input x y sz in
              let! p_out := apply_2d_kernel_seq p s p_out kernel in
              let! output := set_pixel p output x y p_out in
              Ret (output, p_out)) (zrange 0 (width inf)) (output, p_out))
            (zrange 0 (height inf)) (output, []) in
        Ret output
    | Par sched =>
        let! npx := size p inf in
        let! d := par_collect (sched n) npx (fun i =>
            let! '(x, y) := get_2d_coords p i (width inf) in
            let! s := get_neighborhood_2d p input x y sz in
            unwrap (apply_2d_kernel_par p s kernel)) in
        from_vec_of_vec p (width inf) (height inf) (channels inf) (alpha inf) d
    end.

  (** filter/mod.rs:116-125; [svd] as in MathM.separate_kernel *)
  Definition linear_filter (svd : Z -> list f32 -> outcome (list f32 * list f32 * list f32))
      (input : image f32) (kernel : list f32) : outcome (image f32) :=
    check_odd p (num_int USIZE) (len kernel) ;!
    check_square (F (len kernel)) ;!
    let! separable := separate_kernel svd kernel in
    match separable with
    | Some (vert, horz) => separable_filter 0 input vert horz
    | None => unseparable_filter 0 input kernel
    end.

  (** filter/mod.rs:132-139 *)
  Definition box_filter (input : image f32) (sz : Z) : outcome (image f32) :=
    check_odd p (num_int U32) sz ;!
    let! sq := imul p U32 sz sz in
    let kernel := repeat (f32_div f32_1 (F sq)) (Z.to_nat sq) in
    separable_filter 0 input kernel kernel.

  (** filter/mod.rs:142-151 *)
  Definition weighted_avg_filter (input : image f32) (sz weight : Z) : outcome (image f32) :=
    check_odd p (num_int U32) sz ;!
    let! sq := imul p U32 sz sz in
    let! s1 := isub p U32 sq 1 in
    let! sum := iadd p U32 s1 weight in
    let! half := idiv U32 sz 2 in
    let! hs := imul p U32 half sz in
    let! center := iadd p U32 hs half in
    let kernel := repeat (f32_div f32_1 (F sum)) (Z.to_nat sq) in
    let! kernel := vset kernel center (f32_div (F weight) (F sum)) in
    unseparable_filter 0 input kernel.

  (** filter/mod.rs:154-157 *)
  Definition gaussian_blur lm svd (input : image f32) (sz : Z) (sigma : f32) : outcome (image f32) :=
    let! kernel := generate_gaussian_kernel p lm sz sigma in
    linear_filter svd input kernel.

  (** filter/mod.rs:164-166 *)
  Definition sharpen (input : image f32) : outcome (image f32) := unseparable_filter 0 input K_SHARPEN.
  (** filter/mod.rs:169-171 *)
  Definition unsharp_masking (input : image f32) : outcome (image f32) :=
    unseparable_filter 0 input K_UNSHARP_MASKING.

  (** the closures of filter/mod.rs:183-226 *)
  Definition thresh_fn (t max : f32) (m : thresh) (channel : f32) : f32 :=
    match m with
    | Binary => if f32_gtb channel t then max else f32_0
    | BinaryInv => if f32_gtb channel t then f32_0 else max
    | Trunc => if f32_gtb channel t then t else channel
    | ToZero => if f32_gtb channel t then channel else f32_0
    | ToZeroInv => if f32_gtb channel t then f32_0 else channel
    end.
  (** filter/mod.rs:178-228 *)
  Definition threshold (input : image f32) (t max : f32) (m : thresh) : outcome (image f32) :=
    check_grayscale input ;!
    map_channels_if_alpha p (fun c => Ret (thresh_fn t max m c)) (fun a => Ret a) input.

  (** filter/mod.rs:235-253 *)
  Definition residual {T} (N : number T) (original filtered : image T) : outcome (image T) :=
    check_equal_info (info_of original) (info_of filtered) ;!
    let inf := info_of original in
    let! d := mfold (fun d y => mfold (fun d x =>
        let! p1 := get_pixel p original x y in
        let! p2 := get_pixel p filtered x y in
        mfold (fun d c =>
          let! a := vget p1 c in
          let! b := vget p2 c in
          let! r := n_sub N p a b in
          Ret (d ++ [r])) (zrange 0 (channels inf)) d)
        (zrange 0 (width inf)) d) (zrange 0 (height inf)) [] in
    Ret (from_slice (width inf) (height inf) (channels inf) (alpha inf) d).

  (** ** filter/edge.rs *)
  Context (lm : libm).

  (** edge.rs:11-24 *)
  Definition derivative_mask (input : image f32) (vert_kernel horz_kernel : list f32)
    : outcome (image f32) :=
    check_grayscale input ;!
    let! img_x := separable_filter 0 input vert_kernel horz_kernel in
    let! img_y := separable_filter 2 input horz_kernel vert_kernel in
    let! output := blank p num_f32 (info_of input) in
    let! fs := full_size p (info_of output) in
    mfold (fun output i =>
      let! px := img_index p img_x i in
      let! vx := vget px 0 in
      let! py := img_index p img_y i in
      let! vy := vget py 0 in
      set_pixel_indexed p output i
        [f32_sqrt (f32_add (powf lm vx (F 2)) (powf lm vy (F 2)))]) (zrange 0 fs) output.

  (** edge.rs:27-29 *)
  Definition prewitt (input : image f32) : outcome (image f32) :=
    derivative_mask input K_PREWITT_1D_VERT K_PREWITT_1D_HORZ.
  (** edge.rs:32-34 *)
  Definition sobel (input : image f32) : outcome (image f32) :=
    derivative_mask input K_SOBEL_1D_VERT K_SOBEL_1D_HORZ.
  (** edge.rs:37-40 *)
  Definition sobel_weighted (input : image f32) (weight : Z) : outcome (image f32) :=
    derivative_mask input [f32_1; F weight; f32_1] K_SOBEL_1D_HORZ.

  (** edge.rs:44-46 *)
  Definition laplacian (input : image f32) : outcome (image f32) :=
    unseparable_filter 0 input K_LAPLACIAN.
  (** edge.rs:51-54 *)
  Definition laplacian_of_gaussian (input : image f32) (sz : Z) (sigma : f32) : outcome (image f32) :=
    let! kernel := generate_log_kernel p lm sz sigma in
    unseparable_filter 0 input kernel.

  (** `iter().min_by(|x, y| x.partial_cmp(y).unwrap()).unwrap()`, edge.rs:60: a left fold keeping the
      first of equal elements *)
  Definition min_by_cmp (d : list f32) : outcome f32 :=
    match d with
    | [] => Panic
    | x :: d => mfold (fun m y => match f32_partial_cmp m y with
                                  | None => Panic
                                  | Some Gt => Ret y
                                  | Some _ => Ret m
                                  end) d x
    end.
  (** the same with max_by, edge.rs:61: keeps the last of equal elements *)
  Definition max_by_cmp (d : list f32) : outcome f32 :=
    match d with
    | [] => Panic
    | x :: d => mfold (fun m y => match f32_partial_cmp m y with
                                  | None => Panic
                                  | Some Gt => Ret m
                                  | Some _ => Ret y
                                  end) d x
    end.

  (** edge.rs:57-64 *)
  Definition normalize_laplacian (input : image f32) : outcome (image Z) :=
    check_grayscale input ;!
    let! min := min_by_cmp (data input) in
    let! max := max_by_cmp (data input) in
    let! s := scale_channels p input min f32_0 max (F 255) in
    from_f32_u8 p s.
End Filter.
