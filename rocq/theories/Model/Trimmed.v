(** * src/filter/median.rs: alpha_trimmed_mean_filter (lines 27-51 and 364-681) *)
From Verif.Model Require Export Base Float Image Median.
Open Scope Z_scope.

(** The result of `slice::binary_search_by` : Ok(pos) or Err(pos).  The standard library promises
    a result only for slices sorted according to the comparison, and among equal elements any may
    be found; the filter also searches a slice that is sorted the other way round.  So the search
    is a parameter of the model: the slice, and the comparison of an element with the target.
    median.rs:420, 426, 473, 488. *)
Inductive found_at : Type := Found (pos : Z) | Missing (pos : Z).
(** the binary searches of median.rs:420, 426, 473, 488 *)
Definition search : Type := list Z -> (Z -> comparison) -> found_at.
(** `unwrap_or_else(|e| e)`, median.rs:420, 426 *)
Definition pos_of (f : found_at) : Z := match f with Found q => q | Missing q => q end.

(** `Vec::remove` (the removed element is not used) and `Vec::insert`
    median.rs:417, 423, 470, 477, 485, 492. *)
Definition vremove {A} (l : list A) (i : Z) : outcome (list A) :=
  if (0 <=? i) && (i <? len l) then Ret (firstn (Z.to_nat i) l ++ skipn (Z.to_nat (i + 1)) l) else Panic.
(** `Vec::insert` (median.rs:421, 427, 641) *)
Definition vinsert {A} (l : list A) (i : Z) (x : A) : outcome (list A) :=
  if (0 <=? i) && (i <=? len l) then Ret (firstn (Z.to_nat i) l ++ x :: skipn (Z.to_nat i) l) else Panic.

(** median.rs:369-379 [MeanHist]; the constant fields trim and len are the definitions
    [trim] and [kept] below *)
Record meanhist : Type := MeanHist {
  th_data : phist; th_sums : list Z; th_lower : list (list Z); th_upper : list (list Z) }.

Section Trimmed.
  Context (p : profile) (bs : search).

  Section Hist.
    Context (r nc alpha : Z).
    Notation ksize := (ksize r).
    (** median.rs:391, 619: the field trim *)
    Definition trim : Z := alpha / 2.

    (** median.rs:382-394 *)
    Definition meanhist_new : outcome meanhist :=
      let! sq := imul p USIZE ksize ksize in
      let! _ := isub p USIZE sq alpha in
      Ret (MeanHist (phist_new nc) [] [] []).
    (** the field len
    median.rs:382-394. *)
    Definition kept : Z := cast USIZE (cast USIZE (ksize * ksize) - alpha).

    (** median.rs:400-404 *)
    Definition mean_init (h : meanhist) : meanhist :=
      MeanHist (th_data h) (repeat 0 (Z.to_nat nc)) (repeat [] (Z.to_nat nc)) (repeat [] (Z.to_nat nc)).

    (** `self.sums[n] += v`, median.rs:418, 424, 429 *)
    Definition add_sum (h : meanhist) (n v : Z) : outcome meanhist :=
      let! s := vget (th_sums h) n in let! s := iadd p I32 s v in
      let! ss := vset (th_sums h) n s in Ret (MeanHist (th_data h) ss (th_lower h) (th_upper h)).
    (** `self.sums[n] -= v`, median.rs:481, 496, 500, 537, 542, 552, 557 *)
    Definition sub_sum (h : meanhist) (n v : Z) : outcome meanhist :=
      let! s := vget (th_sums h) n in let! s := isub p I32 s v in
      let! ss := vset (th_sums h) n s in Ret (MeanHist (th_data h) ss (th_lower h) (th_upper h)).
    (** an update of `self.lower[n]`: the calls of remove, insert and push at median.rs:417, 421, 470, 477, 536, 541 *)
    Definition edit_lower (h : meanhist) (n : Z) (f : list Z -> outcome (list Z)) : outcome meanhist :=
      let! l := vget (th_lower h) n in let! l := f l in
      let! ls := vset (th_lower h) n l in Ret (MeanHist (th_data h) (th_sums h) ls (th_upper h)).
    (** an update of `self.upper[n]`: the calls of remove, insert and push at median.rs:423, 427, 485, 492, 551, 556 *)
    Definition edit_upper (h : meanhist) (n : Z) (f : list Z -> outcome (list Z)) : outcome meanhist :=
      let! l := vget (th_upper h) n in let! l := f l in
      let! ls := vset (th_upper h) n l in Ret (MeanHist (th_data h) (th_sums h) (th_lower h) ls).

    (** median.rs:522-528 *)
    Definition get_upper (h : meanhist) (n : Z) : outcome Z :=
      let! l := vget (th_upper h) n in let! k := isub p USIZE trim 1 in vget l k.
    (** median.rs:526-528 *)
    Definition get_lower (h : meanhist) (n : Z) : outcome Z :=
      let! l := vget (th_lower h) n in let! k := isub p USIZE trim 1 in vget l k.

    (** median.rs:530-532 *)
    Definition get_mean (h : meanhist) (n : Z) : outcome Z :=
      let! s := vget (th_sums h) n in
      Ret (f32_to_int U8 (f32_round (f32_div (f32_of_Z s) (f32_of_Z kept)))).

    (** the first of [keys] that occurs
    median.rs:539-545, 554-560. *)
    Fixpoint first_key (d : phist) (n : Z) (keys : list Z) : outcome (option Z) :=
      match keys with
      | [] => Ret None
      | key :: keys => let! k := get_count p nc d key n in if 0 <? k then Ret (Some key) else first_key d n keys
      end.

    (** median.rs:534-547 *)
    Definition get_next_lower (h : meanhist) (n lower_count lower : Z) : outcome meanhist :=
      if 0 <? lower_count then
        let! h := edit_lower h n (fun l => Ret (l ++ [lower])) in sub_sum h n lower
      else
        let! a := iadd p U8 lower 1 in
        let! k := first_key (th_data h) n (zrange a 256) in
        match k with
        | Some key => let! h := edit_lower h n (fun l => Ret (l ++ [key])) in sub_sum h n key
        | None => Ret h
        end.

    (** median.rs:549-562 *)
    Definition get_next_upper (h : meanhist) (n upper_count upper : Z) : outcome meanhist :=
      if 0 <? upper_count then
        let! h := edit_upper h n (fun l => Ret (l ++ [upper])) in sub_sum h n upper
      else
        let! k := first_key (th_data h) n (rev (zrange 0 upper)) in
        match k with
        | Some key => let! h := edit_upper h n (fun l => Ret (l ++ [key])) in sub_sum h n key
        | None => Ret h
        end.

    (** `binary_search(&val)` and `binary_search_by_key(&Reverse(&val), Reverse)`
    median.rs:420, 473. *)
    Definition search_up (l : list Z) (val : Z) : found_at := bs l (fun e => e ?= val).
    (** `binary_search_by_key(&Reverse(&val), Reverse)`, median.rs:426, 488 *)
    Definition search_down (l : list Z) (val : Z) : found_at := bs l (fun e => val ?= e).

    (** median.rs:411-431: add one sample to column n *)
    Definition add_one (p_in : list (list Z)) (c n : Z) (h : meanhist) (i : Z) : outcome meanhist :=
      let! px := vget p_in i in
      let! val := vget px c in
      let! lower := get_lower h n in
      let! upper := get_upper h n in
      if val <? lower then
        let! k := isub p USIZE trim 1 in
        let! h := edit_lower h n (fun l => vremove l k) in
        let! h := add_sum h n lower in
        edit_lower h n (fun l => vinsert l (pos_of (search_up l val)) val)
      else if upper <? val then
        let! k := isub p USIZE trim 1 in
        let! h := edit_upper h n (fun l => vremove l k) in
        let! h := add_sum h n upper in
        let! low := vget (th_lower h) n in
        edit_upper h n (fun l => vinsert l (pos_of (search_down low val)) val)
      else add_sum h n val.

    (** median.rs:445-451 *)
    Definition count_rest (p_in : list (list Z)) (c lower upper : Z) (st : Z * Z) (j : Z) : outcome (Z * Z) :=
      let '(lc, uc) := st in
      let! px := vget p_in j in
      let! v := vget px c in
      if v =? lower then let! lc := iadd p I32 lc 1 in Ret (lc, uc)
      else if v =? upper then let! uc := iadd p I32 uc 1 in Ret (lc, uc)
      else Ret (lc, uc).

    (** median.rs:453-467; [l] is the reversed vector *)
    Fixpoint drop_run (l : list Z) (x count : Z) : outcome Z :=
      match l with
      | [] => Ret count
      | j :: l => if j =? x then let! count := isub p I32 count 1 in drop_run l x count else Ret count
      end.

    (** median.rs:438-503: remove one sample from column n *)
    Definition remove_one (p_in : list (list Z)) (c n : Z) (h : meanhist) (i : Z) : outcome meanhist :=
      let! px := vget p_in i in
      let! val := vget px c in
      let! lower := get_lower h n in
      let! upper := get_upper h n in
      let! lc := get_count p nc (th_data h) lower n in
      let! uc := get_count p nc (th_data h) upper n in
      let! '(lc, uc) := mfold (count_rest p_in c lower upper) (zrange i (n + ksize)) (lc, uc) in
      let! low := vget (th_lower h) n in
      let! lc := drop_run (rev low) lower lc in
      let! upp := vget (th_upper h) n in
      let! uc := drop_run (rev upp) upper uc in
      if (val =? lower) && (lc =? 0) then
        let! k := isub p USIZE trim 1 in
        let! h := edit_lower h n (fun l => vremove l k) in
        get_next_lower h n lc lower
      else if val <? lower then
        match search_up low val with
        | Found pos => let! h := edit_lower h n (fun l => vremove l pos) in get_next_lower h n lc lower
        | Missing _ => sub_sum h n val
        end
      else if (val =? upper) && (uc =? 0) then
        let! k := isub p USIZE trim 1 in
        let! h := edit_upper h n (fun l => vremove l k) in
        get_next_upper h n uc upper
      else if upper <? val then
        match search_down low val with
        | Found pos => let! h := edit_upper h n (fun l => vremove l pos) in get_next_upper h n uc upper
        | Missing _ => sub_sum h n val
        end
      else sub_sum h n val.

    (** the update of `self.data` by median.rs:407-508 *)
    Definition set_data (h : meanhist) (d : phist) : meanhist := MeanHist d (th_sums h) (th_lower h) (th_upper h).

    (** median.rs:407-508 *)
    Definition meanhist_update (h : meanhist) (p_in : list (list Z)) (c : Z) (add : bool) : outcome meanhist :=
      if negb (len (th_sums h) =? 0) then
        if add then
          let! h := mfold (fun h n => mfold (add_one p_in c n) (zrange n (n + ksize)) h) (zrange 0 nc) h in
          let! d := phist_update p r nc (th_data h) p_in c add in Ret (set_data h d)
        else
          let! d := phist_update p r nc (th_data h) p_in c add in
          mfold (fun h n => mfold (remove_one p_in c n) (zrange n (n + ksize)) h) (zrange 0 nc) (set_data h d)
      else
        let! d := phist_update p r nc (th_data h) p_in c add in Ret (set_data h d).

    (** median.rs:671-681 *)
    Fixpoint mean_update_all (hs : list meanhist) (p_in : list (list Z)) (c : Z) (add : bool) : outcome (list meanhist) :=
      match hs with
      | [] => Ret []
      | h :: hs => let! h' := meanhist_update h p_in c add in
                   let! hs' := mean_update_all hs p_in (c + 1) add in Ret (h' :: hs')
      end.

    (** median.rs:634-638: `while lower.len() < trim && add > 0`; every turn decrements add, so
        [fuel] = add turns are enough *)
    Fixpoint fill_lower (fuel : nat) (key : Z) (lower : list Z) (sum add : Z) : outcome (list Z * Z * Z) :=
      match fuel with
      | O => Ret (lower, sum, add)
      | S fuel =>
          if (len lower <? trim) && (0 <? add) then
            let! sum := isub p I32 sum key in
            let! add := isub p I32 add 1 in
            fill_lower fuel key (lower ++ [key]) sum add
          else Ret (lower, sum, add)
      end.
    (** median.rs:640-644 *)
    Fixpoint fill_upper (fuel : nat) (key count upper_trim : Z) (upper : list Z) (sum add : Z) : outcome (list Z * Z * Z) :=
      match fuel with
      | O => Ret (upper, sum, add)
      | S fuel =>
          if (upper_trim <? cast USIZE count) && (len upper <? trim) && (0 <? add) then
            let! sum := isub p I32 sum key in
            let! add := isub p I32 add 1 in
            fill_upper fuel key count upper_trim (key :: upper) sum add
          else Ret (upper, sum, add)
      end.

    (** median.rs:629-645: one key; the state is (count, sum, lower, upper) *)
    Definition scan_key (d : phist) (i upper_trim : Z) (st : Z * Z * list Z * list Z) (key : Z)
      : outcome (Z * Z * list Z * list Z) :=
      let '(count, sum, lower, upper) := st in
      let! add := get_count p nc d key i in
      let! count := iadd p I32 count add in
      let! m := imul p I32 add key in
      let! sum := iadd p I32 sum m in
      let! '(lower, sum, add) := fill_lower (Z.to_nat add) key lower sum add in
      let! '(upper, sum, add) := fill_upper (Z.to_nat add) key count upper_trim upper sum add in
      Ret (count, sum, lower, upper).

    (** median.rs:624-651 *)
    Definition mean_first (upper_trim i : Z) (h : meanhist) : outcome (meanhist * Z) :=
      let! '(_, sum, lower, upper) := mfold (scan_key (th_data h) i upper_trim) (zrange 0 256) (0, 0, [], []) in
      let! ss := vset (th_sums h) i sum in
      let! us := vset (th_upper h) i upper in
      let! ls := vset (th_lower h) i lower in
      let h := MeanHist (th_data h) ss ls us in
      let! m := get_mean h i in
      Ret (h, m).

    (** median.rs:662-664 *)
    Definition mean_next (i : Z) (h : meanhist) : outcome (meanhist * Z) :=
      let! m := get_mean h i in Ret (h, m).

    (** median.rs:621-656 and 659-669: the loop over the columns of a row *)
    Definition mean_row (step : Z -> meanhist -> outcome (meanhist * Z))
        (output : image Z) (hs : list meanhist) (x y : Z) : outcome (image Z * list meanhist) :=
      mfold (fun '(output, hs) i =>
          let! rs := mmap (step i) hs in
          let! xi := iadd p U32 x (cast U32 i) in
          let! w1 := isub p U32 (width (info_of output)) 1 in
          let! x_clamp := iclamp xi 0 w1 in
          let! output := set_pixel p output x_clamp y (map snd rs) in
          Ret (output, map fst rs)) (zrange 0 nc) (output, hs).

    (** median.rs:597-657.  row_in is never cleared: it grows by a row in every turn (and
        its first entries, the only ones used, stay those of the first turn). *)
    Definition init_cols_mean (input output : image Z) (hs : list meanhist) (x : Z)
      : outcome (image Z * list meanhist) :=
      let! r2 := imul p U32 2 r in
      let! size := iadd p U32 r2 1 in
      let! ja := ineg p I32 (cast I32 r) in
      let! je := iadd p I32 (cast I32 r) 1 in
      let! '(hs, _) := mfold (fun '(hs, row_in) j =>
          let! h1 := isub p I32 (cast I32 (height (info_of input))) 1 in
          let! jc := iclamp j 0 h1 in
          let! row := row_pixels p r nc input x (cast U32 jc) in
          let row_in := row_in ++ row in
          let! hs := mean_update_all hs row_in 0 true in
          Ret (hs, row_in)) (zrange ja je) (hs, []) in
      let! sq := imul p U32 size size in
      let! upper_trim := isub p USIZE sq trim in
      mean_row (mean_first upper_trim) output (map mean_init hs) x 0.

    (** median.rs:576-594 *)
    Definition mean_next_row (input : image Z) (x : Z) (st : image Z * list meanhist) (j : Z)
      : outcome (image Z * list meanhist) :=
      let '(output, hs) := st in
      let h := height (info_of input) in
      let! jr := iadd p U32 j r in
      let! h1 := isub p U32 h 1 in
      let! j_in := iclamp jr 0 h1 in
      let! a := isub p I32 (cast I32 j) (cast I32 r) in
      let! a := isub p I32 a 1 in
      let! h1 := isub p I32 (cast I32 h) 1 in
      let! j_out := iclamp a 0 h1 in
      let! row_in := row_pixels p r nc input x j_in in
      let! row_out := row_pixels p r nc input x (cast U32 j_out) in
      let! hs := mean_update_all hs row_in 0 true in
      let! hs := mean_update_all hs row_out 0 false in
      mean_row mean_next output hs x j.

    (** median.rs:565-595 *)
    Definition process_cols_mean (input output : image Z) (x : Z) : outcome (image Z) :=
      let! h0 := meanhist_new in
      let hs := repeat h0 (Z.to_nat (channels (info_of input))) in
      let! st := init_cols_mean input output hs x in
      let! '(output, _) := mfold (mean_next_row input x) (zrange 1 (height (info_of input))) st in
      Ret output.
  End Hist.

  (** median.rs:30-51 *)
  Definition alpha_trimmed_mean_filter (lm : libm) (input : image Z) (radius alpha : Z) : outcome (image Z) :=
    let! r2 := imul p U32 2 radius in
    let! size := iadd p U32 r2 1 in
    check_even p (num_int U32) alpha ;!
    let! sq := imul p U32 size size in
    if sq <=? alpha then Fail InvalidArgError else
    let nc := median_cols lm radius in
    let! output := blank p num_u8 (info_of input) in
    let! xs := zrange_step 0 (width (info_of output)) nc in
    mfold (fun output x => process_cols_mean radius nc alpha input output x) xs output.
End Trimmed.
