(** * src/transform.rs

    [sched] arguments belong to the rayon build: the order in which the parallel tasks run. *)
From Verif.Model Require Export Base Float Image MathM Util Par.
Open Scope Z_scope.

(** src/enums.rs:28-41 *)
Inductive scale_method : Type := NearestNeighbor | Bilinear | Bicubic | Lanczos.
(** src/enums.rs:44-50 *)
Inductive refl : Type := Vertical | Horizontal.

Section Transform.
  Context (p : profile).

  (** transform.rs:16-22 (and 40-46).  The sums are computed before each comparison. *)
  Definition crop_check {T} (input : image T) (x y w h : Z) : outcome unit :=
    let! xw := iadd p U32 x w in
    if width (info_of input) <=? xw then Fail InvalidArgError
    else let! yh := iadd p U32 y h in
         if height (info_of input) <=? yh then Fail InvalidArgError else Ret tt.

  (** transform.rs:15-34 (sequential build) *)
  Definition crop_seq {T} (N : number T) (input : image T) (x y w h : Z) : outcome (image T) :=
    crop_check input x y w h ;!
    let! output := blank p N (Info w h (channels (info_of input)) (alpha (info_of input))) in
    mfold (fun out j => mfold (fun out i =>
        let! ix := iadd p U32 i x in
        let! jy := iadd p U32 j y in
        let! px := get_pixel p input ix jy in
        set_pixel p out i j px) (zrange 0 w) out) (zrange 0 h) output.

  (** transform.rs:39-58 (rayon build) *)
  Definition crop_par {T} (sched : list Z) (input : image T) (x y w h : Z) : outcome (image T) :=
    crop_check input x y w h ;!
    let! sz := imul p U32 w h in
    let! d := par_collect sched sz (fun i =>
        let! '(a, b) := get_2d_coords p i w in
        let! ax := iadd p U32 a x in
        let! by_ := iadd p U32 b y in
        get_pixel p input ax by_) in
    from_vec_of_slice p w h (channels (info_of input)) (alpha (info_of input)) d.

  (** transform.rs:63-85 *)
  Definition superimpose (back front : image f32) (x y : Z) (al : f32) : outcome (image f32) :=
    check_equal_Z (channels (info_of back)) (channels (info_of front)) ;!
    check_in_range num_f32 f32_0 f32_1 al ;!
    let! xf := iadd p U32 x (width (info_of front)) in
    let! yf := iadd p U32 y (height (info_of front)) in
    let w := Z.min xf (width (info_of back)) in
    let h := Z.min yf (height (info_of back)) in
    mfold (fun out j => mfold (fun out i =>
        let! p_back := get_pixel p back i j in
        let! ix := isub p U32 i x in
        let! jy := isub p U32 j y in
        let! p_front := get_pixel p front ix jy in
        let! p_in := mmap (fun k =>
            let! b := vget p_back k in
            let! f := vget p_front k in
            Ret (f32_add (f32_mul al b) (f32_mul (f32_sub f32_1 al) f)))
          (zrange 0 (channels (info_of out))) in
        set_pixel p out i j p_in) (zrange x w) out) (zrange y h) back.

  (** transform.rs:89-103 *)
  Definition overlay {T} (back front : image T) (x y : Z) : outcome (image T) :=
    check_equal_Z (channels (info_of back)) (channels (info_of front)) ;!
    let! xf := iadd p U32 x (width (info_of front)) in
    let! yf := iadd p U32 y (height (info_of front)) in
    let w := Z.min xf (width (info_of back)) in
    let h := Z.min yf (height (info_of back)) in
    mfold (fun out j => mfold (fun out i =>
        let! ix := isub p U32 i x in
        let! jy := isub p U32 j y in
        let! px := get_pixel p front ix jy in
        set_pixel p out i j px) (zrange x w) out) (zrange y h) back.

  (** transform.rs:197-207 *)
  Definition translate {T} (N : number T) (input : image T) (x y : Z) : outcome (image T) :=
    let! output := blank p N (info_of input) in
    mfold (fun out j => mfold (fun out i =>
        let! ix := isub p U32 i x in
        let! jy := isub p U32 j y in
        let! px := get_pixel p input ix jy in
        set_pixel p out i j px) (zrange x (width (info_of input))) out)
      (zrange y (height (info_of input))) output.

  (** transform.rs:262-284 *)
  Definition reflect_image {T} (N : number T) (input : image T) (axis : refl) : outcome (image T) :=
    let! output := blank p N (info_of input) in
    let w := width (info_of input) in
    let h := height (info_of input) in
    match axis with
    | Horizontal =>
        mfold (fun out y => mfold (fun out x =>
            let! a := isub p U32 h y in
            let! b := isub p U32 a 1 in
            let! px := get_pixel p input x b in
            set_pixel p out x y px) (zrange 0 w) out) (zrange 0 h) output
    | Vertical =>
        mfold (fun out y => mfold (fun out x =>
            let! a := isub p U32 w x in
            let! b := isub p U32 a 1 in
            let! px := get_pixel p input b y in
            set_pixel p out x y px) (zrange 0 w) out) (zrange 0 h) output
    end.

  (** transform.rs:429-434 *)
  Definition interpolate_nearest_neighbor (input : image f32) (xf yf : f32) (x y : Z)
    : outcome (list f32) :=
    let! x1 := iadd p U32 x 1 in
    let x_in := f32_to_int U32 (f32_sub (f32_ceil (f32_div (f32_of_Z x1) xf)) f32_1) in
    let! y1 := iadd p U32 y 1 in
    let y_in := f32_to_int U32 (f32_sub (f32_ceil (f32_div (f32_of_Z y1) yf)) f32_1) in
    get_pixel p input x_in y_in.

  (** transform.rs:453-456 *)
  Definition bilinear_mix (p1 p2 p3 p4 xw yw : f32) : f32 :=
    let one_x := f32_sub f32_1 xw in
    let one_y := f32_sub f32_1 yw in
    f32_add (f32_add (f32_add
      (f32_mul (f32_mul p1 xw) yw)
      (f32_mul (f32_mul p2 one_x) yw))
      (f32_mul (f32_mul p3 xw) one_y))
      (f32_mul (f32_mul p4 one_x) one_y).

  (** transform.rs:436-460 *)
  Definition interpolate_bilinear (input : image f32) (xf yf : f32) (x y : Z)
    : outcome (list f32) :=
    let x_in := f32_div (f32_of_Z x) xf in
    let y_in := f32_div (f32_of_Z y) yf in
    let x1 := f32_to_int U32 (f32_floor x_in) in
    let! wm := isub p U32 (width (info_of input)) 1 in
    let x2 := Z.min (f32_to_int U32 (f32_ceil x_in)) wm in
    let y1 := f32_to_int U32 (f32_floor y_in) in
    let! hm := isub p U32 (height (info_of input)) 1 in
    let y2 := Z.min (f32_to_int U32 (f32_ceil y_in)) hm in
    let xw := f32_sub x_in (f32_of_Z x1) in
    let yw := f32_sub y_in (f32_of_Z y1) in
    let! p1 := get_pixel p input x1 y1 in
    let! p2 := get_pixel p input x2 y1 in
    let! p3 := get_pixel p input x1 y2 in
    let! p4 := get_pixel p input x2 y2 in
    mmap (fun c =>
      let! a1 := vget p1 c in
      let! a2 := vget p2 c in
      let! a3 := vget p3 c in
      let! a4 := vget p4 c in
      Ret (bilinear_mix a1 a2 a3 a4 xw yw)) (zrange 0 (channels (info_of input))).

  Context (lm : libm).

  (** transform.rs:469-482 and 494-507: the weighted accumulation over a window of offsets.
      [rng] is the offset range (as in the source, evaluated before the loops),
      [weight] the weight of an offset pair. *)
  Definition resample (input : image f32) (rng : list Z) (x_in y_in : f32)
      (weight : Z -> Z -> f32) : outcome (list f32) :=
    let ch := channels (info_of input) in
    mfold (fun p_out m =>
      let! xc := f32_clamp (f32_add x_in (f32_of_Z m)) f32_0
                   (f32_sub (f32_of_Z (width (info_of input))) f32_1) in
      let x_clamp := f32_to_int U32 xc in
      mfold (fun p_out n =>
        let! yc := f32_clamp (f32_add y_in (f32_of_Z n)) f32_0
                     (f32_sub (f32_of_Z (height (info_of input))) f32_1) in
        let y_clamp := f32_to_int U32 yc in
        let! p_in := get_pixel_unchecked p input x_clamp y_clamp in
        let r := weight m n in
        mfold (fun p_out c =>
          let! v := vget p_in c in
          let! o := vget p_out c in
          vset p_out c (f32_add o (f32_mul v r))) (zrange 0 ch) p_out) rng p_out)
      rng (repeat f32_0 (Z.to_nat ch)).

  (** transform.rs:462-485 *)
  Definition interpolate_bicubic (input : image f32) (xf yf : f32) (x y : Z)
    : outcome (list f32) :=
    let x_in := f32_div (f32_of_Z x) xf in
    let y_in := f32_div (f32_of_Z y) yf in
    let dx := f32_sub x_in (f32_floor x_in) in
    let dy := f32_sub y_in (f32_floor y_in) in
    resample input (zrange (-1) 3) x_in y_in (fun m n =>
      f32_mul (cubic_weighting_fn lm (f32_sub (f32_of_Z m) dx))
              (cubic_weighting_fn lm (f32_sub dy (f32_of_Z n)))).

  (** transform.rs:487-510 *)
  Definition interpolate_lanczos (input : image f32) (xf yf : f32) (sz x y : Z)
    : outcome (list f32) :=
    let x_in := f32_div (f32_of_Z x) xf in
    let y_in := f32_div (f32_of_Z y) yf in
    let dx := f32_sub x_in (f32_floor x_in) in
    let dy := f32_sub y_in (f32_floor y_in) in
    let! a := isub p I32 1 (cast I32 sz) in
    let! b := iadd p I32 (cast I32 sz) 1 in
    resample input (zrange a b) x_in y_in (fun i j =>
      f32_mul (lanczos_kernel lm (f32_sub dx (f32_of_Z i)) (f32_of_Z sz))
              (lanczos_kernel lm (f32_sub dy (f32_of_Z j)) (f32_of_Z sz))).

  (** transform.rs:116-119 (and 145-147, 172-175, 188-190) *)
  Definition scale_info (input : image f32) (xf yf : f32) : info :=
    let inf := info_of input in
    Info (f32_to_int U32 (f32_round (f32_mul (f32_of_Z (width inf)) xf)))
         (f32_to_int U32 (f32_round (f32_mul (f32_of_Z (height inf)) yf)))
         (channels inf) (alpha inf).

  (** transform.rs:324-332, 350-358, 376-384, 402-410: the sequential loops, with the
      interpolation function as parameter *)
  Definition scale_loop_seq (interp : Z -> Z -> outcome (list f32)) (output : image f32)
    : outcome (image f32) :=
    mfold (fun out y => mfold (fun out x =>
        let! px := interp x y in set_pixel p out x y px)
      (zrange 0 (width (info_of output))) out) (zrange 0 (height (info_of output))) output.

  (** transform.rs:334-348, 360-374, 386-400, 412-427: the rayon versions *)
  Definition scale_loop_par (sched : list Z) (interp : Z -> Z -> outcome (list f32)) (inf : info)
    : outcome (image f32) :=
    let! sz := size p inf in
    let! d := par_collect sched sz (fun i =>
        let! '(x, y) := get_2d_coords p i (width inf) in interp x y) in
    from_vec_of_vec p (width inf) (height inf) (channels inf) (alpha inf) d.

  (** the `match method` of transform.rs:121-134 and 149-162 *)
  Definition scale_interp (m : scale_method) (input : image f32) (xf yf : f32)
    : Z -> Z -> outcome (list f32) :=
    match m with
    | NearestNeighbor => interpolate_nearest_neighbor input xf yf
    | Bilinear => interpolate_bilinear input xf yf
    | Bicubic => interpolate_bicubic input xf yf
    | Lanczos => interpolate_lanczos input xf yf 3
    end.

  (** transform.rs:112-137 (sequential build) *)
  Definition scale_seq (input : image f32) (xf yf : f32) (m : scale_method) : outcome (image f32) :=
    check_non_neg num_f32 xf ;!
    check_non_neg num_f32 yf ;!
    let! output := blank p num_f32 (scale_info input xf yf) in
    scale_loop_seq (scale_interp m input xf yf) output.

  (** transform.rs:141-163 (rayon build) *)
  Definition scale_par (sched : list Z) (input : image f32) (xf yf : f32) (m : scale_method)
    : outcome (image f32) :=
    check_non_neg num_f32 xf ;!
    check_non_neg num_f32 yf ;!
    scale_loop_par sched (scale_interp m input xf yf) (scale_info input xf yf).

  (** transform.rs:167-179 (sequential build) *)
  Definition scale_lanczos_seq (input : image f32) (xf yf : f32) (sz : Z) : outcome (image f32) :=
    check_non_neg num_f32 xf ;!
    check_non_neg num_f32 yf ;!
    check_non_neg (num_int U32) sz ;!
    let! output := blank p num_f32 (scale_info input xf yf) in
    scale_loop_seq (interpolate_lanczos input xf yf sz) output.

  (** transform.rs:183-193 (rayon build) *)
  Definition scale_lanczos_par (sched : list Z) (input : image f32) (xf yf : f32) (sz : Z)
    : outcome (image f32) :=
    check_non_neg num_f32 xf ;!
    check_non_neg num_f32 yf ;!
    check_non_neg (num_int U32) sz ;!
    scale_loop_par sched (interpolate_lanczos input xf yf sz) (scale_info input xf yf).

  (** transform.rs:214-259 (everything after sin and cos have been computed) *)
  Definition rotate_by (input : image f32) (sin cos : f32) : outcome (image f32) :=
    let w_in := width (info_of input) in
    let h_in := height (info_of input) in
    let x := w_in / 2 in
    let y := h_in / 2 in
    let F := f32_of_Z in
    let mat := [cos; f32_neg sin; sin; cos] in
    let! c1 := vector_mul p num_f32 mat [f32_neg (F x); F y] in
    let! wx := isub p U32 w_in x in
    let! c2 := vector_mul p num_f32 mat [F wx; F y] in
    let! c3 := vector_mul p num_f32 mat [f32_neg (F x); f32_sub (F y) (F h_in)] in
    let! c4 := vector_mul p num_f32 mat [F wx; f32_sub (F y) (F h_in)] in
    let! x1 := vget c1 0 in let! x2 := vget c2 0 in let! x3 := vget c3 0 in let! x4 := vget c4 0 in
    let! y1 := vget c1 1 in let! y2 := vget c2 1 in let! y3 := vget c3 1 in let! y4 := vget c4 1 in
    let x_max := max_4 x1 x2 x3 x4 in
    let x_min := min_4 x1 x2 x3 x4 in
    let y_max := max_4 y1 y2 y3 y4 in
    let y_min := min_4 y1 y2 y3 y4 in
    let w_out := f32_to_int U32 (f32_sub x_max x_min) in
    let h_out := f32_to_int U32 (f32_sub y_max y_min) in
    let! output := blank p num_f32 (Info w_out h_out (channels (info_of input)) (alpha (info_of input))) in
    mfold (fun out j => mfold (fun out i =>
        let! coords := vector_mul_mut p num_f32 mat
                         [f32_sub (F i) (F x); f32_sub (F y) (F j)] [] in
        let! c0 := vget coords 0 in
        let! c1 := vget coords 1 in
        let c0 := f32_add c0 (f32_sub x_max f32_1) in
        let c1 := f32_sub (f32_sub y_max c1) f32_1 in
        let! px := get_pixel p input i j in
        let! out := set_pixel p out (f32_to_int U32 c0) (f32_to_int U32 c1) px in
        if f32_geb c0 f32_1 then
          let! cm := isub p U32 (f32_to_int U32 c0) 1 in
          set_pixel p out cm (f32_to_int U32 c1) px
        else Ret out) (zrange 0 w_in) out) (zrange 0 h_in) output.
  (** transform.rs:210-259; `sin_cos` of the angle in radians is the oracle [lm] *)
  Definition rotate (input : image f32) (degrees : f32) : outcome (image f32) :=
    rotate_by input (sinf lm (f32_to_radians degrees)) (cosf lm (f32_to_radians degrees)).

  (** transform.rs:287-318 *)
  Definition shear (input : image f32) (sx sy : f32) : outcome (image f32) :=
    let w_in := width (info_of input) in
    let h_in := height (info_of input) in
    let F := f32_of_Z in
    let offset_x := f32_abs (f32_mul (F h_in) sx) in
    let offset_y := f32_abs (f32_mul (F w_in) sy) in
    let! w_out := iadd p U32 w_in (f32_to_int U32 offset_x) in
    let! h_out := iadd p U32 (f32_to_int U32 offset_y) h_in in
    let! output := blank p num_f32 (Info w_out h_out (channels (info_of input)) (alpha (info_of input))) in
    let mat := [f32_1; f32_neg sx; f32_neg sy; f32_1] in
    mfold (fun out y => mfold (fun out x =>
        let! coords := vector_mul_mut p num_f32 mat [F x; F y] [] in
        let! c0 := vget coords 0 in
        let! c1 := vget coords 1 in
        let c0 := if f32_gtb sx f32_0 then f32_add c0 offset_x else c0 in
        let c1 := if f32_gtb sy f32_0 then f32_add c1 offset_y else c1 in
        let! px := get_pixel p input x y in
        set_pixel p out (f32_to_int U32 c0) (f32_to_int U32 c1) px)
      (zrange 0 w_in) out) (zrange 0 h_in) output.
End Transform.
