(** * src/util/mod.rs *)
From Verif.Model Require Export Base Float Image MathM.
Open Scope Z_scope.

(** src/enums.rs:4-7 *)
Inductive white : Type := D50 | D65.

(** util/mod.rs:22-27 *)
Definition xyz_tristimulus_vals (w : white) : f32 * f32 * f32 :=
  match w with
  | D50 => (f32_dec 964212 4, f32_of_Z 100, f32_dec 825188 4)
  | D65 => (f32_dec 950489 4, f32_of_Z 100, f32_dec 1088840 4)
  end.

(** BTreeMap<i32, i32>: association list sorted by key (used at util/mod.rs:39-53) *)
Definition btree := list (Z * Z).
(** `let count = map.entry(k).or_insert(1); *count += 1;` util/mod.rs:44-45 *)
Fixpoint btree_bump (p : profile) (m : btree) (k : Z) : outcome btree :=
  match m with
  | [] => let! v := iadd p I32 1 1 in Ret [(k, v)]
  | (k', v) :: m' =>
      if k <? k' then let! v' := iadd p I32 1 1 in Ret ((k, v') :: m)
      else if k =? k' then let! v' := iadd p I32 v 1 in Ret ((k, v') :: m')
      else let! m'' := btree_bump p m' k in Ret ((k', v) :: m'')
  end.

(** HashMap<i32, f32> seen through `insert` and `get`
    util/mod.rs:38, tone.rs:142-147. *)
Definition hashmap := list (Z * f32).
(** `HashMap::get` (tone.rs:147) *)
Fixpoint hm_get (m : hashmap) (k : Z) : option f32 :=
  match m with
  | [] => None
  | (k', v) :: m' => if k =? k' then Some v else hm_get m' k
  end.
(** `HashMap::insert` (util/mod.rs:53) *)
Definition hm_insert (m : hashmap) (k : Z) (v : f32) : hashmap := (k, v) :: m.

Section Util.
  Context (p : profile).

  (** the key of a pixel, util/mod.rs:43 *)
  Definition hist_key (precision : f32) (px : list f32) : outcome Z :=
    let! v := vget px 0 in
    Ret (f32_to_int I32 (f32_round (f32_mul v precision))).

  (** util/mod.rs:38-55 *)
  Definition generate_histogram_percentiles (input : image f32) (percentiles : hashmap)
      (precision : f32) : outcome hashmap :=
    let inf := info_of input in
    let! histogram :=
      mfold (fun hist y => mfold (fun hist x =>
          let! px := get_pixel p input x y in
          let! k := hist_key precision px in
          btree_bump p hist k) (zrange 0 (width inf)) hist)
        (zrange 0 (height inf)) [] in
    let! sz := size p inf in
    let num_pixels := f32_of_Z sz in
    let! '(_, perc) :=
      mfold (fun '(sum, perc) '(key, val) =>
          let! sum' := iadd p I32 sum val in
          Ret (sum', hm_insert perc key (f32_div (f32_of_Z sum') num_pixels)))
        histogram (0, percentiles) in
    Ret perc.

  (** util/mod.rs:58-63 *)
  Definition generate_lookup_table {T} (table : list T) (f : Z -> outcome T) : outcome (list T) :=
    mfold (fun t i => let! v := f (cast U8 i) in vset t i v) (zrange 0 (len table)) table.

  (** the writing loop shared by util/mod.rs:72-84 and 96-108; [num] is the value
      computed for (i-k)^2+(j-k)^2 *)
  Definition kernel_fill (num : Z -> f32) (sz : Z) : outcome (list f32) :=
    let! sq := imul p U32 sz sz in
    let! s1 := isub p U32 sz 1 in
    let! k0 := idiv U32 s1 2 in
    let k := cast I32 k0 in
    let s32 := cast I32 sz in
    mfold (fun filter i => mfold (fun filter j =>
        if i <=? j then
          let! ik := isub p I32 i k in
          let! jk := isub p I32 j k in
          let! ii := imul p I32 ik ik in
          let! jj := imul p I32 jk jk in
          let! d2 := iadd p I32 ii jj in
          let v := num d2 in
          let! a := imul p I32 i s32 in
          let! b := iadd p I32 a j in
          let! filter := vset filter (cast USIZE b) v in
          if negb (i =? j) then
            let! a := imul p I32 j s32 in
            let! b := iadd p I32 a i in
            vset filter (cast USIZE b) v
          else Ret filter
        else Ret filter) (zrange 0 s32) filter)
      (zrange 0 s32) (repeat f32_0 (Z.to_nat sq)).

  Context (lm : libm).
  Notation F := f32_of_Z.

  (** util/mod.rs:75-76 *)
  Definition gaussian_num (sigma : f32) (d2 : Z) : f32 :=
    f32_mul (f32_div f32_1 (f32_mul (f32_mul (f32_mul (F 2) f32_pi) sigma) sigma))
            (powf lm f32_e (f32_div (f32_neg (F d2)) (f32_mul (f32_mul (F 2) sigma) sigma))).

  (** util/mod.rs:66-87 *)
  Definition generate_gaussian_kernel (sz : Z) (sigma : f32) : outcome (list f32) :=
    check_odd p (num_int U32) sz ;! kernel_fill (gaussian_num sigma) sz.

  (** util/mod.rs:99-100 *)
  Definition log_num (sigma : f32) (d2 : Z) : f32 :=
    let ex := f32_div (f32_neg (F d2)) (f32_mul (f32_mul (F 2) sigma) sigma) in
    f32_mul (f32_mul (f32_div (F (-1)) (f32_mul f32_pi (powf lm sigma (F 4))))
                     (f32_sub f32_1 ex))
            (powf lm f32_e ex).

  (** util/mod.rs:90-111 *)
  Definition generate_log_kernel (sz : Z) (sigma : f32) : outcome (list f32) :=
    check_odd p (num_int U32) sz ;! kernel_fill (log_num sigma) sz.

  (** `mat[(a * size + b) as usize] = g`
    util/mod.rs:123-152. *)
  Definition mat_put (sz : Z) (g : f32) (mat : list f32) (a b : Z) : outcome (list f32) :=
    let! i := imul p U32 a sz in
    let! i := iadd p U32 i b in
    vset mat i g.

  (** util/mod.rs:114-159 *)
  Definition generate_spatial_mat (sz : Z) (spatial : f32) : outcome (list f32) :=
    let! center := idiv U32 sz 2 in
    let! sq := imul p U32 sz sz in
    let! c1 := iadd p U32 center 1 in
    mfold (fun mat y => mfold (fun mat x =>
        let! a := imul p U32 y sz in
        let! ix := iadd p U32 a x in
        let! cur := vget mat ix in
        if f32_eqb cur f32_0 && negb ((x =? center) && (y =? center)) then
          let dist := distance center center x y in
          let! g := gaussian_fn lm dist spatial in
          let! mat := vset mat ix g in
          if x =? y then
            let! delta := isub p U32 center y in
            let! coord := iadd p U32 center delta in
            let! mat := mat_put sz g mat coord x in
            let! mat := mat_put sz g mat x coord in
            mat_put sz g mat coord coord
          else if x =? center then
            let! delta := isub p U32 center y in
            let! xs := imul p U32 x sz in
            let! xx := iadd p U32 xs x in
            let! i1 := isub p U32 xx delta in
            let! mat := vset mat i1 g in
            let! i2 := iadd p U32 xx delta in
            let! mat := vset mat i2 g in
            let! xd := iadd p U32 x delta in
            mat_put sz g mat xd x
          else
            let! delta_x := isub p U32 center x in
            let! delta_y := isub p U32 center y in
            let! pos_x := iadd p U32 center delta_x in
            let! pos_y := iadd p U32 center delta_y in
            let! neg_x := isub p U32 center delta_x in
            let! neg_y := isub p U32 center delta_y in
            let! mat := mat_put sz g mat neg_x neg_y in
            let! mat := mat_put sz g mat neg_y pos_x in
            let! mat := mat_put sz g mat pos_x neg_y in
            let! mat := mat_put sz g mat pos_y neg_x in
            let! mat := mat_put sz g mat neg_x pos_y in
            let! mat := mat_put sz g mat pos_y pos_x in
            mat_put sz g mat pos_x pos_y
        else Ret mat) (zrange 0 c1) mat)
      (zrange 0 c1) (repeat f32_0 (Z.to_nat sq)).

  (** util/mod.rs:163-196 *)
  Definition generate_summed_area_table (input : image f32) : outcome (image f32) :=
    let inf := info_of input in
    let! output := blank p num_f32 inf in
    let zeroes := repeat f32_0 (Z.to_nat (channels inf)) in
    mfold (fun output y => mfold (fun output x =>
        let! p_in := get_pixel p input x y in
        let! p_left := if 0 <? x then get_pixel p output (x - 1) y else Ret zeroes in
        let! p_diag := if (0 <? x) && (0 <? y) then get_pixel p output (x - 1) (y - 1) else Ret zeroes in
        let! p_top := if 0 <? y then get_pixel p output x (y - 1) else Ret zeroes in
        let! p_out := mmap (fun c =>
            let! i := vget p_in c in
            let! t := vget p_top c in
            let! l := vget p_left c in
            let! d := vget p_diag c in
            Ret (f32_sub (f32_add (f32_add i t) l) d)) (zrange 0 (channels inf)) in
        set_pixel p output x y p_out) (zrange 0 (width inf)) output)
      (zrange 0 (height inf)) output.

  (** util/mod.rs:200-226 *)
  Definition rectangular_intensity_sum (table : image f32) (x0 y0 x1 y1 : Z) : outcome (list f32) :=
    let ch := channels (info_of table) in
    let zeroes := repeat f32_0 (Z.to_nat ch) in
    let! bot_right := get_pixel p table x1 y1 in
    let! bot_left := if negb (x0 =? 0) then get_pixel p table (x0 - 1) y1 else Ret zeroes in
    let! top_left := if negb (x0 =? 0) && negb (y0 =? 0)
                     then get_pixel p table (x0 - 1) (y0 - 1) else Ret zeroes in
    let! top_right := if negb (y0 =? 0) then get_pixel p table x1 (y0 - 1) else Ret zeroes in
    mmap (fun i =>
      let! br := vget bot_right i in
      let! tr := vget top_right i in
      let! bl := vget bot_left i in
      let! tl := vget top_left i in
      Ret (f32_add (f32_sub (f32_sub br tr) bl) tl)) (zrange 0 ch).

  (** util/mod.rs:229-234 *)
  Definition get_2d_coords (i w : Z) : outcome (Z * Z) :=
    let! x := irem U32 i w in
    let! d := isub p U32 i x in
    let! y := idiv U32 d w in
    Ret (x, y).
End Util.
