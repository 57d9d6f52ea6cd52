(** * src/filter/bilateral.rs *)
From Verif.Model Require Export Filter Colorspace.
Open Scope Z_scope.

(** src/enums.rs: `Bilateral` has the single variant `Direct`; it is left out. *)
Section Bilateral.
  Context (p : profile) (lm : libm) (b : build).
  Notation F := f32_of_Z.

  (** bilateral.rs:74-85 (sequential), 96-107 (rayon): one channel of one pixel *)
  Definition bilateral_channel (p_n : subimage f32) (range : f32) (spatial_mat : list f32) (sz c : Z) (channel : f32)
    : outcome f32 :=
    let! sq := imul p U32 sz sz in
    let! '(p_curr, total_weight) :=
      mfold (fun '(p_curr, total_weight) i =>
          let! px := sub_index p_n i in
          let! v := vget px c in
          let! g_r := unwrap (gaussian_fn lm (f32_abs (f32_sub channel v)) range) in
          let! s := vget spatial_mat i in
          let weight := f32_mul s g_r in
          Ret (f32_add p_curr (f32_mul weight v), f32_add total_weight weight))
        (zrange 0 sq) (f32_0, f32_0) in
    Ret (f32_div p_curr total_weight).

  (** bilateral.rs:68-87 (sequential; `output` is cleared and refilled) and 90-111 (rayon): the two
      functions differ only in who owns the vector *)
  Definition bilateral_direct_pixel (input : image f32) (range : f32) (spatial_mat : list f32) (sz x y : Z)
    : outcome (list f32) :=
    let! p_n := get_neighborhood_2d p input x y sz in
    let! p_in := get_pixel p input x y in
    mmap (fun c => let! channel := vget p_in c in bilateral_channel p_n range spatial_mat sz c channel)
      (zrange 0 (len p_in)).

  (** bilateral.rs:11-36 (sequential) and 40-66 (rayon) *)
  Definition bilateral_filter (n : nat) (input : image Z) (range spatial : f32) : outcome (image Z) :=
    check_non_neg num_f32 range ;!
    check_non_neg num_f32 spatial ;!
    let inf := info_of input in
    let sz := f32_to_int U32 (f32_add (f32_mul spatial (F 4)) f32_1) in
    let! spatial_mat := generate_spatial_mat p lm sz spatial in
    let! lab := srgb_to_lab_f32 p lm input D65 in
    let! output :=
      match b with
      | Seq =>
          let! output := blank p num_f32 (info_of lab) in
          mfold (fun output y => mfold (fun output x =>
              let! p_out := bilateral_direct_pixel lab range spatial_mat sz x y in
              set_pixel p output x y p_out) (zrange 0 (width inf)) output)
            (zrange 0 (height inf)) output
      | Par sched =>
          let! npx := size p inf in
          let! d := par_collect (sched n) npx (fun i =>
              let! '(x, y) := get_2d_coords p i (width inf) in
              bilateral_direct_pixel lab range spatial_mat sz x y) in
          from_vec_of_vec p (width inf) (height inf) (channels inf) (alpha inf) d
      end in
    lab_to_srgb_f32 p lm output D65.
End Bilateral.
