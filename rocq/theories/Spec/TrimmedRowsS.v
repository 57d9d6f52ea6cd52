(** * Specification: the alpha-trimmed mean below the first row, one window at a time

    For every window the filter keeps a running sum of the values that are not dropped, and the
    lists of the dropped low and high values.  Going down by one row, the samples of the row that
    comes in are added one by one, then those of the row that goes out are taken away one by one.
    [None]: the filter panics. *)
From Verif.Model Require Import Base Image Trimmed.
From Verif.Spec Require Import ImageS SumS MedianS TrimmedS.
Open Scope Z_scope.

Record window_state := WindowState { ws_sum : Z; ws_low : list Z; ws_high : list Z }.

(** the sum lives in 32 bits *)
Definition wrap32 (s : Z) : Z := (s + 2 ^ 31) mod 2 ^ 32 - 2 ^ 31.

(** element i, if there is one *)
Definition item (l : list Z) (i : Z) : option Z := if (0 <=? i) && (i <? len l) then nth_error l (Z.to_nat i) else None.
(** l without its element i *)
Definition without (l : list Z) (i : Z) : option (list Z) :=
  if (0 <=? i) && (i <? len l) then Some (part l 0 i ++ part l (i + 1) (len l)) else None.
(** l with v put in before element i *)
Definition with_item (l : list Z) (i v : Z) : option (list Z) :=
  if (0 <=? i) && (i <=? len l) then Some (part l 0 i ++ v :: part l i (len l)) else None.

(** how often v occurs in l, and how often in a row at its end *)
Definition occurrences (v : Z) (l : list Z) : Z := len (filter (fun s => s =? v) l).
Fixpoint leading (v : Z) (l : list Z) : Z := match l with x :: l => if x =? v then 1 + leading v l else 0 | [] => 0 end.
Definition trailing (v : Z) (l : list Z) : Z := leading v (rev l).

Section Steps.
  (** the library's binary search, and the number t of values to drop at each end *)
  Context (find_in : search) (t : Z).
  Definition place (l : list Z) (cmp : Z -> comparison) : Z := match find_in l cmp with Found q => q | Missing q => q end.
  Notation ascending v := (fun e : Z => e ?= v).
  Notation descending v := (fun e : Z => v ?= e).

  (** a sample v comes in *)
  Definition enter (v : Z) (w : window_state) : option window_state :=
    let '(WindowState s low high) := w in
    match item low (t - 1), item high (t - 1) with
    | Some l, Some h =>
        if v <? l then
          match without low (t - 1) with
          | Some low' => match with_item low' (place low' (ascending v)) v with
                         | Some low'' => Some (WindowState (wrap32 (s + l)) low'' high) | None => None end
          | None => None end
        else if h <? v then
          match without high (t - 1) with
          | Some high' => match with_item high' (place low (descending v)) v with
                          | Some high'' => Some (WindowState (wrap32 (s + h)) low high'') | None => None end
          | None => None end
        else Some (WindowState (wrap32 (s + v)) low high)
    | _, _ => None
    end.

  (** the low values have lost one: the next is l again if [more] of them are counted, otherwise
      the first counted level above l; if there is none, the list stays shorter *)
  Definition refill_low (tally : Z -> Z) (more : bool) (l : Z) (w : window_state) : window_state :=
    let '(WindowState s low high) := w in
    if more then WindowState (wrap32 (s - l)) (low ++ [l]) high
    else match find (fun k => 0 <? tally k) (zrange ((l + 1) mod 256) 256) with
         | Some k => WindowState (wrap32 (s - k)) (low ++ [k]) high
         | None => w
         end.
  Definition refill_high (tally : Z -> Z) (more : bool) (h : Z) (w : window_state) : window_state :=
    let '(WindowState s low high) := w in
    if more then WindowState (wrap32 (s - h)) low (high ++ [h])
    else match find (fun k => 0 <? tally k) (rev (zrange 0 h)) with
         | Some k => WindowState (wrap32 (s - k)) low (high ++ [k])
         | None => w
         end.

  (** a sample v goes out; [rest] are the samples of its row from v on *)
  Definition leave (tally : Z -> Z) (v : Z) (rest : list Z) (w : window_state) : option window_state :=
    let '(WindowState s low high) := w in
    match item low (t - 1), item high (t - 1) with
    | Some l, Some h =>
        let kept_l := tally l + occurrences l rest - trailing l low in
        let kept_h := tally h + (if l =? h then 0 else occurrences h rest) - trailing h high in
        if (v =? l) && (kept_l =? 0) then
          match without low (t - 1) with
          | Some low' => Some (refill_low tally false l (WindowState s low' high)) | None => None end
        else if v <? l then
          match find_in low (ascending v) with
          | Found q => match without low q with
                       | Some low' => Some (refill_low tally (0 <? kept_l) l (WindowState s low' high)) | None => None end
          | Missing _ => Some (WindowState (wrap32 (s - v)) low high) end
        else if (v =? h) && (kept_h =? 0) then
          match without high (t - 1) with
          | Some high' => Some (refill_high tally false h (WindowState s low high')) | None => None end
        else if h <? v then
          match find_in low (descending v) with
          | Found q => match without high q with
                       | Some high' => Some (refill_high tally (0 <? kept_h) h (WindowState s low high')) | None => None end
          | Missing _ => Some (WindowState (wrap32 (s - v)) low high) end
        else Some (WindowState (wrap32 (s - v)) low high)
    | _, _ => None
    end.

  Fixpoint enter_all (row : list Z) (w : window_state) : option window_state :=
    match row with
    | [] => Some w
    | v :: row => match enter v w with Some w => enter_all row w | None => None end
    end.
  Fixpoint leave_all (tally : Z -> Z) (row : list Z) (w : window_state) : option window_state :=
    match row with
    | [] => Some w
    | v :: rest => match leave tally v row w with Some w => leave_all tally rest w | None => None end
    end.
End Steps.

(** Whole windows: v x y is the sample in column x and row y; the window has radius r and is
    centred in column x. *)
Section Windows.
  Context (find_in : search) (v : Z -> Z -> Z) (r alpha x : Z).

  (** the samples of row y in the window, from left to right *)
  Definition window_row (y : Z) : list Z := map (fun i => v i y) (zrange (x - r) (x + r + 1)).

  (** What the filter counts as the occurrences of s in the window around row j: the real number,
      plus an error that never goes away: the rows 1 to r are left out from the start, and row 0
      is counted in their place. *)
  Definition counted (j s : Z) : Z :=
    window_count (fun q => q =? s) v r x j
    + Zsum (fun k => occurrences s (window_row 0) - occurrences s (window_row k)) 1 (r + 1).

  (** the state after the first row *)
  Definition first_state : window_state :=
    let l := sorted_window (fun i _ => v i 0) r x 0 in
    let t := alpha / 2 in
    let low := part l 0 t in
    let high := part l (upper_cut l alpha) (upper_cut l alpha + t) in
    WindowState (sum_of l - sum_of low - sum_of high) low (rev high).

  (** the state after row j *)
  Fixpoint state_after (j : nat) : option window_state :=
    match j with
    | O => Some first_state
    | S j' =>
        match state_after j' with
        | None => None
        | Some w =>
            match enter_all find_in (alpha / 2) (window_row (Z.of_nat j + r)) w with
            | None => None
            | Some w => leave_all find_in (alpha / 2) (counted (Z.of_nat j)) (window_row (Z.of_nat j - r - 1)) w
            end
        end
    end.

  (** what row y of the output shows *)
  Definition shown_mean (w : window_state) : Z :=
    Z.max 0 (Z.min 255 (rounded_quotient (ws_sum w) ((2 * r + 1) * (2 * r + 1) - alpha))).
End Windows.
