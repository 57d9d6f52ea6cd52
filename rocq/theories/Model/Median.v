(** * src/filter/median.rs *)
From Verif.Model Require Export Base Float Image.
Open Scope Z_scope.

(** ** PartialHistograms (median.rs:73-80)

    Simplification: the constant fields n_cols, n_half = n_cols / 2, radius and
    size = 2 * radius + 1 of the struct (median.rs:83-94) are the section variables [nc] and
    [r] and the definitions below; `data` is [phist]: [nc] arrays of 256 i32 counters.
    Allocation failure is not modelled. *)
Definition phist : Type := list (list Z).

(** median.rs:155-159 [MedianHist]: data, sums, pivots *)
Record medhist : Type := MedHist { mh_data : phist; mh_sums : list Z; mh_pivots : list Z }.

Section Median.
  Context (p : profile).

  (** median.rs:12-15 (and 36-39).  The usize addition cannot overflow: n_cols is even there. *)
  Definition median_cols (lm : libm) (radius : Z) : Z :=
    let n := f32_to_int USIZE (f32_floor (f32_mul (f32_of_Z 4)
               (powf lm (f32_of_Z radius) (f32_div (f32_of_Z 2) (f32_of_Z 3))))) in
    if n mod 2 =? 0 then n + 1 else n.

  Section Hist.
    Context (r nc : Z).
    (** median.rs:83-94, the field n_half *)
    Definition n_half : Z := nc / 2.
    (** median.rs:83-94, the field size *)
    Definition ksize : Z := 2 * r + 1.

    (** median.rs:83-94 *)
    Definition phist_new : phist := repeat (repeat 0 256) (Z.to_nat nc).

    (** `self.data[n][p_in[i][channel_index] as usize] += inc`
    median.rs:108-121. *)
    Definition bump (d : phist) (n : Z) (p_in : list (list Z)) (i c : Z) (inc : Z) : outcome phist :=
      let! px := vget p_in i in
      let! v := vget px c in
      let! h := vget d n in
      let! k := vget h v in
      let! k := iadd p I32 k inc in
      let! h := vset h v k in
      vset d n h.
    (** the same with `-= inc`
    median.rs:108-121. *)
    Definition unbump (d : phist) (n : Z) (p_in : list (list Z)) (i c : Z) (inc : Z) : outcome phist :=
      let! px := vget p_in i in
      let! v := vget px c in
      let! h := vget d n in
      let! k := vget h v in
      let! k := isub p I32 k inc in
      let! h := vset h v k in
      vset d n h.

    (** median.rs:97-122 *)
    Definition phist_update (d : phist) (p_in : list (list Z)) (c : Z) (add : bool) : outcome phist :=
      let inc := if add then 1 else -1 in
      let! d := mfold (fun d n =>
          let! n_upper := isub p USIZE (nc - n) 1 in
          mfold (fun d i =>
            let! d := bump d n p_in i c inc in
            let! d := unbump d n p_in (i + ksize) c inc in
            let! i_upper := isub p USIZE (nc + 2 * r - i) 1 in
            let! i_lower := isub p USIZE i_upper ksize in
            let! d := unbump d n_upper p_in i_lower c inc in
            bump d n_upper p_in i_upper c inc) (zrange n n_half) d)
        (zrange 0 n_half) d in
      mfold (fun d i => bump d n_half p_in i c inc) (zrange n_half (n_half + ksize)) d.

    (** median.rs:126-133 *)
    Definition get_count (d : phist) (key index : Z) : outcome Z :=
      let! h := vget d n_half in
      let! count := vget h key in
      if negb (index =? n_half) then
        let! h := vget d index in
        let! k := vget h key in
        iadd p I32 count k
      else Ret count.

    (** ** MedianHist *)

    (** median.rs:162-168 *)
    Definition medhist_new : medhist := MedHist phist_new (repeat 0 (Z.to_nat nc)) [].

    (** median.rs:182-184 *)
    Definition init_pivots (h : medhist) : medhist :=
      MedHist (mh_data h) (mh_sums h) (repeat 0 (Z.to_nat nc)).

    (** median.rs:186-188 *)
    Definition set_pivot (h : medhist) (pivot index : Z) : outcome medhist :=
      let! v := vset (mh_pivots h) index pivot in Ret (MedHist (mh_data h) (mh_sums h) v).

    (** median.rs:190-192 *)
    Definition set_sum (h : medhist) (sum index : Z) : outcome medhist :=
      let! v := vset (mh_sums h) index sum in Ret (MedHist (mh_data h) v (mh_pivots h)).

    (** median.rs:194-212 *)
    Definition medhist_update (h : medhist) (p_in : list (list Z)) (c : Z) (add : bool) : outcome medhist :=
      let! d := phist_update (mh_data h) p_in c add in
      let inc := if add then 1 else -1 in
      let! sums :=
        if negb (len (mh_pivots h) =? 0) then
          mfold (fun sums n => mfold (fun sums i =>
              let! px := vget p_in i in
              let! v := vget px c in
              let! pv := vget (mh_pivots h) n in
              if v <? pv then
                let! s := vget sums n in
                let! s := iadd p I32 s inc in
                vset sums n s
              else Ret sums) (zrange n (n + ksize)) sums) (zrange 0 nc) (mh_sums h)
        else Ret (mh_sums h) in
      Ret (MedHist d sums (mh_pivots h)).

    (** median.rs:346-356: `for (c, hist) in histograms.iter_mut().enumerate()`.
        [c] is the index of the first histogram of the list. *)
    Fixpoint update_all (hs : list medhist) (p_in : list (list Z)) (c : Z) (add : bool) : outcome (list medhist) :=
      match hs with
      | [] => Ret []
      | h :: hs => let! h' := medhist_update h p_in c add in
                   let! hs' := update_all hs p_in (c + 1) add in Ret (h' :: hs')
      end.

    (** median.rs:278-288 and 312-322: scan the histogram of column [i] upwards.  Result: the
        key found and the number of smaller values, or nothing. *)
    Fixpoint scan_up (d : phist) (i center : Z) (keys : list Z) (sum : Z) : outcome (option (Z * Z)) :=
      match keys with
      | [] => Ret None
      | key :: keys =>
          let! add := get_count d key i in
          let! s := iadd p I32 sum add in
          if center <=? s then Ret (Some (key, sum)) else scan_up d i center keys s
      end.

    (** median.rs:326-334: scan downwards *)
    Fixpoint scan_down (d : phist) (i center : Z) (keys : list Z) (sum : Z) : outcome (option (Z * Z)) :=
      match keys with
      | [] => Ret None
      | key :: keys =>
          let! k := get_count d key i in
          let! s := isub p I32 sum k in
          if s <? center then Ret (Some (key, s)) else scan_down d i center keys s
      end.

    (** `p_out.push(key); hist.set_sum(sum, i); break;`, or nothing
    median.rs:312-333. *)
    Definition found (h : medhist) (i : Z) (res : option (Z * Z)) : outcome (medhist * list Z) :=
      match res with
      | Some (key, sum) => let! h := set_sum h sum i in Ret (h, [key])
      | None => Ret (h, [])
      end.

    (** median.rs:276-288: the first row, one histogram *)
    Definition first_step (center i : Z) (h : medhist) : outcome (medhist * list Z) :=
      let! res := scan_up (mh_data h) i center (zrange 0 256) 0 in found h i res.

    (** median.rs:302-336: another row, one histogram *)
    Definition next_step (center i : Z) (h : medhist) : outcome (medhist * list Z) :=
      let! pivot := vget (mh_pivots h) i in
      let! sum := vget (mh_sums h) i in
      match Z.compare sum center with
      | Eq => Ret (h, [pivot])
      | Lt => let! res := scan_up (mh_data h) i center (zrange pivot 256) sum in found h i res
      | Gt => let! res := scan_down (mh_data h) i center (rev (zrange 0 pivot)) sum in found h i res
      end.

    (** median.rs:358-362 *)
    Definition set_pivots (hs : list medhist) (pivots : list Z) (i : Z) : outcome (list medhist) :=
      mfold (fun hs c =>
        let! h := vget hs c in
        let! pv := vget pivots c in
        let! h := set_pivot h pv i in
        vset hs c h) (zrange 0 (len pivots)) hs.

    (** median.rs:273-295 and 299-343: the loop over the columns of a row.  [step] is
        [first_step] or [next_step]; [p_out] is cleared for every column, so it is rebuilt here. *)
    Definition process_row (step : Z -> medhist -> outcome (medhist * list Z))
        (output : image Z) (hs : list medhist) (x y : Z) : outcome (image Z * list medhist) :=
      mfold (fun '(output, hs) i =>
          let! rs := mmap (step i) hs in
          let p_out := concat (map snd rs) in
          let! xi := iadd p U32 x (cast U32 i) in
          let! w1 := isub p U32 (width (info_of output)) 1 in
          let! x_clamp := iclamp xi 0 w1 in
          let! output := set_pixel p output x_clamp y p_out in
          let! hs := set_pivots (map fst rs) p_out i in
          Ret (output, hs)) (zrange 0 nc) (output, hs).

    (** the pixels pushed into row_in / row_out: median.rs:236-240, 258-261; [row] is the
        (clamped) row *)
    Definition row_pixels (input : image Z) (x row : Z) : outcome (list (list Z)) :=
      let! a := isub p I32 (cast I32 x) (cast I32 r) in
      let! e := iadd p U32 x (cast U32 nc) in
      let! e := iadd p U32 e r in
      mmap (fun i =>
        let! w1 := isub p I32 (cast I32 (width (info_of input))) 1 in
        let! ic := iclamp i 0 w1 in
        get_pixel_unchecked p input (cast U32 ic) row) (zrange a (cast I32 e)).

    (** median.rs:251-296.  Simplification: the row number is clamped once per row instead of
        once per pixel (every row has at least one pixel unless the sums above overflow). *)
    Definition init_cols (input output : image Z) (hs : list medhist) (center x : Z)
      : outcome (image Z * list medhist) :=
      let! ja := ineg p I32 (cast I32 r) in
      let! je := iadd p I32 (cast I32 r) 1 in
      let! hs := mfold (fun hs j =>
          let! h1 := isub p I32 (cast I32 (height (info_of input))) 1 in
          let! jc := iclamp j 0 h1 in
          let! row_in := row_pixels input x (cast U32 jc) in
          update_all hs row_in 0 true) (zrange ja je) hs in
      process_row (first_step center) output (map init_pivots hs) x 0.

    (** median.rs:227-246: the body of the loop over the rows of a block.  Simplification: row_in
        and row_out are built one after the other. *)
    Definition next_row (input : image Z) (center x : Z) (st : image Z * list medhist) (j : Z)
      : outcome (image Z * list medhist) :=
      let '(output, hs) := st in
      let h := height (info_of input) in
      let! jr := iadd p U32 j r in
      let! h1 := isub p U32 h 1 in
      let! j_in := iclamp jr 0 h1 in
      let! a := isub p I32 (cast I32 j) (cast I32 r) in
      let! a := isub p I32 a 1 in
      let! h1 := isub p I32 (cast I32 h) 1 in
      let! j_out := iclamp a 0 h1 in
      let! row_in := row_pixels input x j_in in
      let! row_out := row_pixels input x (cast U32 j_out) in
      let! hs := update_all hs row_in 0 true in
      let! hs := update_all hs row_out 0 false in
      process_row (next_step center) output hs x j.

    (** median.rs:216-246: the block at [x] up to the rows before [e] *)
    Definition block_rows (input output : image Z) (x e : Z) : outcome (image Z * list medhist) :=
      let! r2 := imul p U32 2 r in
      let! size := iadd p U32 r2 1 in
      let! sq := imul p U32 size size in
      let! half := idiv U32 sq 2 in
      let! c := iadd p U32 half 1 in
      let center := cast I32 c in
      let hs := repeat medhist_new (Z.to_nat (channels (info_of input))) in
      let! st := init_cols input output hs center x in
      mfold (next_row input center x) (zrange 1 e) st.

    (** median.rs:215-249 *)
    Definition process_cols (input output : image Z) (x : Z) : outcome (image Z) :=
      let! '(output, _) := block_rows input output x (height (info_of input)) in
      Ret output.
  End Hist.

  (** median.rs:11-24 *)
  Definition median_filter (lm : libm) (input : image Z) (radius : Z) : outcome (image Z) :=
    let nc := median_cols lm radius in
    let! output := blank p num_u8 (info_of input) in
    let! xs := zrange_step 0 (width (info_of output)) nc in
    mfold (fun output x => process_cols radius nc input output x) xs output.
End Median.
