(** * The project's own tests, run on the model

    Every assertion of the active tests in /repo/tests (image_test.rs, math_test.rs, pixel_test.rs,
    util_test.rs; the others only write pictures and are commented out) holds of the model, in both
    build profiles.  These are checks of the model against the code, not proofs of properties. *)
From Verif.Model Require Import Base Float Image MathM Util.
Open Scope Z_scope.

(** equality of lists of floats, as Rust's ==; the floats are given as numerator / 10000 *)
Fixpoint feq (l : list f32) (m : list Z) : bool :=
  match l, m with [], [] => true | x :: l, n :: m => f32_eqb x (f32_dec n 4) && feq l m | _, _ => false end.
Definition fl (l : list Z) : list f32 := map f32_of_Z l.
Definition feq_Z (l : list f32) (m : list Z) : bool := feq l (map (fun n => 10000 * n) m).

(** ** image_test.rs *)
Definition t_new : image Z := from_slice 3 3 4 true
  [1; 2; 3; 4; 2; 3; 4; 5; 3; 4; 5; 6;  1; 2; 3; 4; 2; 3; 4; 5; 3; 4; 5; 6;  1; 2; 3; 4; 2; 3; 4; 10; 3; 4; 5; 6].

(** image_test.rs:3-35 image_general_test *)
Example image_general_test p :
  info_eqb (Info 3 3 4 true) (info_of t_new) = true /\
  get_pixel p t_new 1 2 = Ret [2; 3; 4; 10] /\
  img_index p t_new 1 = Ret [2; 3; 4; 5] /\
  (let! px := img_index p t_new 7 in vget px 3) = Ret 10 /\
  (let! px := get_pixel p t_new 0 0 in px_alpha p px) = Ret 4 /\
  (let! px := get_pixel p t_new 2 2 in px_channels_without_alpha p px) = Ret [3; 4; 5] /\
  data t_new = [1; 2; 3; 4; 2; 3; 4; 5; 3; 4; 5; 6;  1; 2; 3; 4; 2; 3; 4; 5; 3; 4; 5; 6;  1; 2; 3; 4; 2; 3; 4; 10; 3; 4; 5; 6] /\
  (let! b := blank p num_f64 (Info 3 3 3 false) in Ret (length (data b), forallb (fun x => n_eqb num_f64 x (n_zero num_f64)) (data b))) = Ret (27%nat, true) /\
  (let! i := set_pixel p t_new 2 2 [1; 1; 1; 1] in
   let! a := get_pixel p i 2 2 in
   let! i := set_pixel_indexed p i 3 [1; 1; 1; 1] in
   let! b := img_index p i 3 in Ret (a, b)) = Ret ([1; 1; 1; 1], [1; 1; 1; 1]).
Proof. destruct p; vm_compute; repeat split; reflexivity. Qed.

(** image_test.rs:37-87 image_get_subimage_test *)
Definition t_sub : image Z := from_slice 3 3 4 true
  [1; 2; 3; 4; 2; 3; 4; 5; 3; 4; 5; 6;  6; 5; 4; 3; 5; 4; 3; 2; 4; 3; 2; 1;  2; 4; 6; 8; 3; 5; 7; 9; 1; 3; 5; 7].
Example image_get_subimage_test p :
  let pixels s := let! s := s in Ret (sub_data s) in
  pixels (get_subimage p t_sub 0 1 1 2) = Ret [[6; 5; 4; 3]; [2; 4; 6; 8]] /\
  pixels (get_neighborhood_1d p t_sub 1 2 3 false) = Ret [[2; 4; 6; 8]; [3; 5; 7; 9]; [1; 3; 5; 7]] /\
  pixels (get_neighborhood_1d p t_sub 2 1 3 true) = Ret [[3; 4; 5; 6]; [4; 3; 2; 1]; [1; 3; 5; 7]] /\
  pixels (get_neighborhood_1d p t_sub 0 0 3 false) = Ret [[1; 2; 3; 4]; [1; 2; 3; 4]; [2; 3; 4; 5]] /\
  pixels (get_neighborhood_1d p t_sub 1 2 3 true) = Ret [[5; 4; 3; 2]; [3; 5; 7; 9]; [3; 5; 7; 9]] /\
  pixels (get_neighborhood_2d p t_sub 1 1 3) = Ret [[1; 2; 3; 4]; [2; 3; 4; 5]; [3; 4; 5; 6]; [6; 5; 4; 3]; [5; 4; 3; 2]; [4; 3; 2; 1]; [2; 4; 6; 8]; [3; 5; 7; 9]; [1; 3; 5; 7]] /\
  pixels (get_neighborhood_2d p t_sub 0 0 3) = Ret [[1; 2; 3; 4]; [1; 2; 3; 4]; [2; 3; 4; 5]; [1; 2; 3; 4]; [1; 2; 3; 4]; [2; 3; 4; 5]; [6; 5; 4; 3]; [6; 5; 4; 3]; [5; 4; 3; 2]].
Proof. destruct p; vm_compute; repeat split; reflexivity. Qed.

(** image_test.rs:89-131 image_map_test *)
Definition t_px : list Z := [1; 2; 3; 4; 2; 3; 4; 5; 6; 5; 4; 3; 5; 4; 3; 2].
Definition t_img1 : image Z := from_slice 2 2 4 true t_px.
Definition t_img2 : image Z := from_slice 2 2 4 false t_px.
Definition plus5 p (c : Z) : outcome Z := iadd p U8 c 5.
Definition minus5 p (c : Z) : outcome Z := isub p U8 c 5.
Definition same (a : Z) : outcome Z := Ret a.
Definition samples_of (i : outcome (image Z)) : outcome (list Z) := let! i := i in Ret (data i).
Definition t_all5 : list Z := [6; 7; 8; 9; 7; 8; 9; 10; 11; 10; 9; 8; 10; 9; 8; 7].
Definition t_col5 : list Z := [6; 7; 8; 4; 7; 8; 9; 5; 11; 10; 9; 3; 10; 9; 8; 2].
Example image_map_test p :
  samples_of (map_pixels p (mmap (plus5 p)) t_img1) = Ret t_all5 /\
  samples_of (map_pixels_if_alpha p (mmap (plus5 p)) same t_img1) = Ret t_col5 /\
  samples_of (map_pixels_if_alpha p (mmap (plus5 p)) same t_img2) = Ret t_all5 /\
  samples_of (map_channels p (plus5 p) t_img1) = Ret t_all5 /\
  samples_of (map_channels_if_alpha p (plus5 p) same t_img1) = Ret t_col5 /\
  samples_of (map_channels_if_alpha p (plus5 p) same t_img2) = Ret t_all5 /\
  samples_of (edit_channel p (plus5 p) 2 t_img1) = Ret [1; 2; 8; 4; 2; 3; 9; 5; 6; 5; 9; 3; 5; 4; 8; 2].
Proof. destruct p; vm_compute; repeat split; reflexivity. Qed.

(** image_test.rs:133-171 image_apply_test *)
Example image_apply_test p :
  (let! a1 := apply_pixels p (mmap (plus5 p)) t_img1 in
   let! a2 := apply_pixels_if_alpha p (mmap (plus5 p)) same a1 in
   let! b1 := apply_pixels_if_alpha p (mmap (plus5 p)) same t_img2 in
   let! a3 := apply_channels p (plus5 p) a2 in
   let! a4 := apply_channels_if_alpha p (minus5 p) same a3 in
   let! b2 := apply_channels_if_alpha p (minus5 p) same b1 in
   Ret [data a1; data a2; data b1; data a3; data a4; data b2]) =
  Ret [t_all5;
       [11; 12; 13; 9; 12; 13; 14; 10; 16; 15; 14; 8; 15; 14; 13; 7];
       t_all5;
       [16; 17; 18; 14; 17; 18; 19; 15; 21; 20; 19; 13; 20; 19; 18; 12];
       [11; 12; 13; 14; 12; 13; 14; 15; 16; 15; 14; 13; 15; 14; 13; 12];
       t_px].
Proof. destruct p; vm_compute; reflexivity. Qed.

(** image_test.rs:173-181 subimage_test *)
Example subimage_test p :
  let s := SubImage (Info 2 2 3 false) [[1; 2; 3]; [4; 5; 6]; [6; 5; 4]; [3; 2; 1]] in
  sub_index s 2 = Ret [6; 5; 4] /\ sub_get_pixel p s 0 1 = Ret [6; 5; 4].
Proof. destruct p; vm_compute; split; reflexivity. Qed.

(** ** math_test.rs *)

(** math_test.rs:5-16 vector_mul_test (the literals are i32) *)
Example vector_mul_test p :
  vector_mul p (num_int I32) [1; 2; 3; 4; 5; 6; 7; 8; 9] [1; 2; 3] = Ret [14; 32; 50] /\
  vector_mul_mut p (num_int I32) [1; 2; 3; 4; 5; 6; 7; 8; 9] [1; 2; 3] [] = Ret [14; 32; 50].
Proof. destruct p; vm_compute; split; reflexivity. Qed.

(** math_test.rs:18-31 max_test and 33-46 min_test *)
Definition max3 a b c := max_3 (f32_of_Z a) (f32_of_Z b) (f32_of_Z c).
Definition max4 a b c d := max_4 (f32_of_Z a) (f32_of_Z b) (f32_of_Z c) (f32_of_Z d).
Definition min3 a b c := min_3 (f32_of_Z a) (f32_of_Z b) (f32_of_Z c).
Definition min4 a b c d := min_4 (f32_of_Z a) (f32_of_Z b) (f32_of_Z c) (f32_of_Z d).
Example max_test : feq_Z [max3 1 2 3; max3 1 1 1; max3 1 3 3; max3 1 1 3; max4 1 2 3 4; max4 1 1 1 1; max4 1 2 2 3; max4 1 2 3 3] [3; 1; 3; 3; 4; 1; 3; 3] = true.
Proof. vm_compute. reflexivity. Qed.
Example min_test : feq_Z [min3 1 2 3; min3 1 1 1; min3 1 3 3; min3 1 1 3; min4 1 2 3 4; min4 1 1 1 1; min4 1 2 2 3; min4 1 2 3 3] [1; 1; 1; 1; 1; 1; 1; 1] = true.
Proof. vm_compute. reflexivity. Qed.

(** math_test.rs:49-75 apply_1d_kernel_test, both builds *)
Definition t_s1 : subimage f32 := SubImage (Info 3 1 3 false) [fl [1; 2; 3]; fl [4; 5; 6]; fl [2; 3; 4]].
Example apply_1d_kernel_test p :
  (let! r := apply_1d_kernel_seq p t_s1 [] (fl [1; 2; 1]) in Ret (feq_Z r [11; 15; 19])) = Ret true /\
  (let! r := apply_1d_kernel_par p t_s1 (fl [1; 2; 1]) in Ret (feq_Z r [11; 15; 19])) = Ret true.
Proof. destruct p; vm_compute; split; reflexivity. Qed.

(** math_test.rs:78-115 apply_2d_kernel_test, both builds *)
Definition t_s2 : subimage f32 := SubImage (Info 3 3 3 false)
  (map fl [[1; 2; 3]; [2; 3; 4]; [3; 4; 5]; [6; 5; 4]; [5; 4; 3]; [4; 3; 2]; [2; 4; 6]; [3; 5; 7]; [1; 3; 5]]).
Example apply_2d_kernel_test p :
  (let! r := apply_2d_kernel_seq p t_s2 [] K_GAUSSIAN_BLUR_2D_3 in Ret (feq r [35625; 38125; 40625])) = Ret true /\
  (let! r := apply_2d_kernel_par p t_s2 K_GAUSSIAN_BLUR_2D_3 in Ret (feq r [35625; 38125; 40625])) = Ret true.
Proof. destruct p; vm_compute; split; reflexivity. Qed.

(** ** pixel_test.rs *)

(** pixel_test.rs:3-10 pixel_general_test, 12-29 pixel_map_test (the literals are i32) *)
Example pixel_test p :
  px_alpha p [1; 2; 3; 4] = Ret 4 /\ px_channels_without_alpha p [1; 2; 3; 4] = Ret [1; 2; 3] /\
  px_map_all (fun c => iadd p I32 c 5) [1; 2; 3; 4] = Ret [6; 7; 8; 9] /\
  px_map_alpha p (fun c => iadd p I32 c 5) same [1; 2; 3; 4] = Ret [6; 7; 8; 4] /\
  (let! px := px_apply (fun c => iadd p I32 c 5) [1; 2; 3; 4] in
   let! qx := px_apply_alpha p (fun c => isub p I32 c 5) same px in Ret (px, qx)) = Ret ([6; 7; 8; 9], [1; 2; 3; 9]).
Proof. destruct p; vm_compute; repeat split; reflexivity. Qed.

(** ** util_test.rs *)
Definition t_table : list Z := [31; 33; 37; 70; 75; 111;  43; 71; 84; 127; 161; 222;  56; 101; 135; 200; 254; 333].

(** util_test.rs:4-16 summed_area_table_test *)
Example summed_area_table_test p :
  (let! t := generate_summed_area_table p (from_slice 6 3 1 false
     (fl [31; 2; 4; 33; 5; 36;  12; 26; 9; 10; 29; 25;  13; 17; 21; 22; 20; 18])) in Ret (feq_Z (data t) t_table)) = Ret true.
Proof. destruct p; vm_compute; reflexivity. Qed.

(** util_test.rs:18-28 rectangular_intensity_sum_test (an image that says it has four rows and has three) *)
Example rectangular_intensity_sum_test p :
  let i := from_slice 6 4 1 false (fl t_table) in
  let sum x0 y0 x1 y1 := let! s := rectangular_intensity_sum p i x0 y0 x1 y1 in Ret (feq_Z s [154], feq_Z s [198], feq_Z s [254]) in
  sum 1 1 4 2 = Ret (true, false, false) /\ sum 1 0 4 2 = Ret (false, true, false) /\ sum 0 0 4 2 = Ret (false, false, true).
Proof. destruct p; vm_compute; repeat split; reflexivity. Qed.
