(** * Images: src/image/mod.rs, sub_image.rs, pixel.rs, pixel_iter.rs, from_impl.rs
    and the argument checks of src/error/messages.rs. *)

From Verif.Model Require Export Base Float.
Open Scope Z_scope.

(** src/image/mod.rs:79-84 [ImageInfo]; the fields are u32, u32, u8, bool. *)
Record info : Type := Info { width : Z; height : Z; channels : Z; alpha : bool }.

(** derived PartialEq of [ImageInfo], src/image/mod.rs:78 *)
Definition info_eqb (a b : info) : bool :=
  (width a =? width b) && (height a =? height b) && (channels a =? channels b)
  && Bool.eqb (alpha a) (alpha b).

(** src/image/mod.rs:72-75 [Image<T>] *)
Record image (T : Type) : Type := Image { info_of : info; data : list T }.
Arguments Image {T}. Arguments info_of {T}. Arguments data {T}.

(** src/image/sub_image.rs:6-9 [SubImage]; the borrowed slices are their contents. *)
Record subimage (T : Type) : Type := SubImage { sub_info : info; sub_data : list (list T) }.
Arguments SubImage {T}. Arguments sub_info {T}. Arguments sub_data {T}.

(** ** src/error/messages.rs *)

(** messages.rs:4-9: compares the length truncated to u8 *)
Definition check_channels (ch : Z) (l : Z) : outcome unit :=
  if ch =? cast U8 l then Ret tt else Panic.

(** messages.rs:11-18 *)
Definition check_xy (x y w h : Z) : outcome unit :=
  if w <=? x then Panic else if h <=? y then Panic else Ret tt.

Section Checks.
  Context (p : profile) {T : Type} (N : number T).

  (** messages.rs:20-26 *)
  Definition check_odd (v : T) : outcome unit :=
    let! r := n_rem N p v (n_of_u8 N 2) in
    if n_eqb N r (n_zero N) then Fail InvalidArgError else Ret tt.

  (** messages.rs:28-34 *)
  Definition check_even (v : T) : outcome unit :=
    let! r := n_rem N p v (n_of_u8 N 2) in
    if n_eqb N r (n_zero N) then Ret tt else Fail InvalidArgError.

  (** messages.rs:36-42 *)
  Definition check_non_neg (v : T) : outcome unit :=
    if n_ltb N v (n_zero N) then Fail InvalidArgError else Ret tt.

  (** messages.rs:60-66 *)
  Definition check_in_range (v mn mx : T) : outcome unit :=
    if n_ltb N v mn || n_ltb N mx v then Fail InvalidArgError else Ret tt.
End Checks.

(** messages.rs:44-50, at the type u8/usize *)
Definition check_equal_Z (a b : Z) : outcome unit :=
  if a =? b then Ret tt else Fail InvalidArgError.

(** messages.rs:44-50, at the type ImageInfo *)
Definition check_equal_info (a b : info) : outcome unit :=
  if info_eqb a b then Ret tt else Fail InvalidArgError.

(** messages.rs:52-58 *)
Definition check_square (v : f32) : outcome unit :=
  if f32_neb (f32_rem (f32_sqrt v) f32_1) f32_0 then Fail InvalidArgError else Ret tt.

(** messages.rs:68-74 *)
Definition check_grayscale {T} (img : image T) : outcome unit :=
  let i := info_of img in
  if (alpha i && negb (channels i =? 2)) || (negb (alpha i) && negb (channels i =? 1))
  then Fail InvalidArgError else Ret tt.

(** ** src/image/pixel.rs: methods of pixels (slices) *)

Section Pixel.
  Context (p : profile).

  (** pixel.rs:39-41; the usize subtraction wraps in release, and then the index is out
      of range: a panic either way *)
  Definition px_alpha {T} (px : list T) : outcome T :=
    let! i := isub p USIZE (len px) 1 in vget px i.

  (** pixel.rs:43-45 *)
  Definition px_channels_without_alpha {T} (px : list T) : outcome (list T) :=
    let! i := isub p USIZE (len px) 1 in vslice px 0 i.

  (** pixel.rs:47-56 *)
  Definition px_map_all {T S} (f : T -> outcome S) (px : list T) : outcome (list S) :=
    mmap f px.

  (** pixel.rs:58-69 *)
  Definition px_map_alpha {T S} (f g : T -> outcome S) (px : list T) : outcome (list S) :=
    let! cs := px_channels_without_alpha px in
    let! out := mmap f cs in
    let! a := px_alpha px in
    let! b := g a in
    Ret (out ++ [b]).

  (** pixel.rs:71-76 *)
  Definition px_apply {T} (f : T -> outcome T) (px : list T) : outcome (list T) :=
    mmap f px.

  (** pixel.rs:78-86 *)
  Definition px_apply_alpha {T} (f g : T -> outcome T) (px : list T) : outcome (list T) :=
    let! n := isub p USIZE (len px) 1 in
    let! px1 := mfold (fun px i => let! c := vget px i in
                                   let! c' := f c in
                                   vset px i c') (zrange 0 n) px in
    let! i := isub p USIZE (len px1) 1 in
    let! a := px_alpha px1 in
    let! a' := g a in
    vset px1 i a'.

  (** pixel.rs:88-96 *)
  Definition px_is_black {T} (N : number T) (px : list T) : bool :=
    forallb (fun c => n_eqb N c (n_zero N)) px.

  (** pixel.rs:98-106 *)
  Definition px_is_black_alpha {T} (N : number T) (px : list T) : outcome bool :=
    let! cs := px_channels_without_alpha px in
    Ret (forallb (fun c => n_eqb N c (n_zero N)) cs).
End Pixel.

(** ** src/image/mod.rs *)

Section Img.
  Context (p : profile).

  (** mod.rs:162-168 *)
  Definition channels_non_alpha (i : info) : outcome Z :=
    if alpha i then isub p U8 (channels i) 1 else Ret (channels i).

  (** mod.rs:171-173 *)
  Definition size (i : info) : outcome Z := imul p U32 (width i) (height i).

  (** mod.rs:176-178 *)
  Definition full_size (i : info) : outcome Z :=
    let! s := imul p U32 (width i) (height i) in imul p U32 s (channels i).

  (** mod.rs:189-194 *)
  Definition from_slice {T} (w h c : Z) (a : bool) (d : list T) : image T :=
    Image (Info w h c a) d.

  (** mod.rs:197-202 *)
  Definition from_vec {T} (w h c : Z) (a : bool) (d : list T) : image T :=
    Image (Info w h c a) d.

  (** mod.rs:205-215; the capacity computation can overflow *)
  Definition from_vec_of_vec {T} (w h c : Z) (a : bool) (d : list (list T)) : outcome (image T) :=
    let! s := imul p U32 w h in
    let! _ := imul p U32 s c in
    Ret (Image (Info w h c a) (fold_left (fun acc v => acc ++ v) d [])).

  (** mod.rs:218-228 *)
  Definition from_vec_of_slice {T} (w h c : Z) (a : bool) (d : list (list T)) : outcome (image T) :=
    let! s := imul p U32 w h in
    let! _ := imul p U32 s c in
    Ret (Image (Info w h c a) (fold_left (fun acc v => acc ++ v) d [])).

  (** mod.rs:231-236 *)
  Definition blank {T} (N : number T) (i : info) : outcome (image T) :=
    let! fs := full_size i in
    Ret (Image i (repeat (n_zero N) (Z.to_nat fs))).

  (** mod.rs:239-244 *)
  Definition empty {T} (i : info) : outcome (image T) :=
    let! _ := full_size i in Ret (Image i []).

  (** mod.rs:247-249 *)
  Definition index {T} (img : image T) (x y : Z) : outcome Z :=
    let! a := imul p U32 y (width (info_of img)) in
    let! b := iadd p U32 a x in
    imul p U32 b (channels (info_of img)).

  (** mod.rs:568-571 `img[i]` *)
  Definition img_index {T} (img : image T) (i : Z) : outcome (list T) :=
    let! start := imul p USIZE i (channels (info_of img)) in
    let! stop := iadd p USIZE start (channels (info_of img)) in
    vslice (data img) start stop.

  (** mod.rs:575-578 `&mut img[i]` followed by an update of the borrowed slice.
      [f] maps the old contents of the slice to the new ones (same length). *)
  Definition img_index_mut {T} (img : image T) (i : Z) (f : list T -> outcome (list T))
    : outcome (image T) :=
    let! start := imul p USIZE i (channels (info_of img)) in
    let! stop := iadd p USIZE start (channels (info_of img)) in
    let! old := vslice (data img) start stop in
    let! new := f old in
    let! d := vcopy (data img) start stop new in
    Ret (Image (info_of img) d).

  (** mod.rs:558-562 *)
  Definition get_pixel {T} (img : image T) (x y : Z) : outcome (list T) :=
    check_xy x y (width (info_of img)) (height (info_of img)) ;!
    let! a := imul p U32 y (width (info_of img)) in
    let! b := iadd p U32 a x in
    img_index img b.

  (** mod.rs:262-264 *)
  Definition get_pixel_unchecked {T} (img : image T) (x y : Z) : outcome (list T) :=
    let! a := imul p U32 y (width (info_of img)) in
    let! b := iadd p U32 a x in
    img_index img b.

  (** mod.rs:271-276, followed by an update [f] of the borrowed slice *)
  Definition get_pixel_mut {T} (img : image T) (x y : Z) (f : list T -> outcome (list T))
    : outcome (image T) :=
    check_xy x y (width (info_of img)) (height (info_of img)) ;!
    let! start := index img x y in
    let! stop := iadd p USIZE start (channels (info_of img)) in
    let! old := vslice (data img) start stop in
    let! new := f old in
    let! d := vcopy (data img) start stop new in
    Ret (Image (info_of img) d).

  (** mod.rs:280-283, followed by an update [f] of the borrowed slice *)
  Definition get_pixel_mut_unchecked {T} (img : image T) (x y : Z)
      (f : list T -> outcome (list T)) : outcome (image T) :=
    let! a := imul p U32 y (width (info_of img)) in
    let! b := iadd p U32 a x in
    img_index_mut img b f.

  (** mod.rs:376-382 *)
  Definition set_pixel {T} (img : image T) (x y : Z) (px : list T) : outcome (image T) :=
    check_channels (channels (info_of img)) (len px) ;!
    check_xy x y (width (info_of img)) (height (info_of img)) ;!
    let! start := index img x y in
    let! stop := iadd p USIZE (channels (info_of img)) start in
    let! d := vcopy (data img) start stop px in
    Ret (Image (info_of img) d).

  (** mod.rs:389-394 *)
  Definition set_pixel_indexed {T} (img : image T) (i : Z) (px : list T) : outcome (image T) :=
    check_channels (channels (info_of img)) (len px) ;!
    let! start := imul p USIZE i (channels (info_of img)) in
    let! stop := iadd p USIZE (channels (info_of img)) start in
    let! d := vcopy (data img) start stop px in
    Ret (Image (info_of img) d).

  (** mod.rs:291-303; the outer loop runs over x, the inner one over y *)
  Definition get_subimage {T} (img : image T) (x y w h : Z) : outcome (subimage T) :=
    check_xy x y (width (info_of img)) (height (info_of img)) ;!
    let! xe := iadd p U32 x w in
    let! d := mfold (fun acc i =>
                let! ye := iadd p U32 y h in
                mfold (fun acc j => let! px := get_pixel img i j in Ret (acc ++ [px]))
                      (zrange y ye) acc)
              (zrange x xe) [] in
    Ret (SubImage (Info w h (channels (info_of img)) (alpha (info_of img))) d).

  (** the coordinate used for neighbour number [i]: mod.rs:318-322, 329-333, 357-361.
      [c] is the centre, [sz] the size, [bound] the width or height. *)
  Definition nb_coord (c sz i bound : Z) : outcome Z :=
    let! half := idiv I32 (cast I32 sz) 2 in
    let! start := isub p I32 (cast I32 c) half in
    let! cur := iadd p I32 start (cast I32 i) in
    Ret (cast U32 (if (cur <? 0) || (cast I32 bound <=? cur) then cast I32 c else cur)).

  (** mod.rs:312-340.  Simplification: the start coordinate is recomputed for every
      neighbour (same value); with [sz] = 0 the source still evaluates it once, which
      cannot panic. *)
  Definition get_neighborhood_1d {T} (img : image T) (x y sz : Z) (is_vert : bool)
    : outcome (subimage T) :=
    let i := info_of img in
    check_xy x y (width i) (height i) ;!
    if is_vert then
      let! d := mmap (fun k => let! cy := nb_coord y sz k (height i) in get_pixel img x cy)
                     (zrange 0 sz) in
      Ret (SubImage (Info 1 sz (channels i) (alpha i)) d)
    else
      let! d := mmap (fun k => let! cx := nb_coord x sz k (width i) in get_pixel img cx y)
                     (zrange 0 sz) in
      Ret (SubImage (Info sz 1 (channels i) (alpha i)) d).

  (** mod.rs:348-368 *)
  Definition get_neighborhood_2d {T} (img : image T) (x y sz : Z) : outcome (subimage T) :=
    let inf := info_of img in
    check_xy x y (width inf) (height inf) ;!
    let! rows := mmap (fun i => mmap (fun j =>
                   let! cx := nb_coord x sz j (width inf) in
                   let! cy := nb_coord y sz i (height inf) in
                   get_pixel img cx cy) (zrange 0 sz)) (zrange 0 sz) in
    Ret (SubImage (Info sz sz (channels inf) (alpha inf)) (concat rows)).

  (** mod.rs:397-418.  The closure `f(&[T], &mut Vec<S>)` is a function from the pixel to
      the samples it appends (the vector passed is always empty: `append` drains it). *)
  Definition map_pixels {T S} (f : list T -> outcome (list S)) (img : image T)
    : outcome (image S) :=
    let inf := info_of img in
    let! sz := size inf in
    let! d := mmap (fun i => let! px := img_index img i in f px) (zrange 0 sz) in
    let d := concat d in
    let! ch := idiv U32 (cast U32 (len d)) sz in
    Ret (Image (Info (width inf) (height inf) (cast U8 ch) (alpha inf)) d).

  (** mod.rs:423-450 *)
  Definition map_pixels_if_alpha {T S} (f : list T -> outcome (list S)) (g : T -> outcome S)
      (img : image T) : outcome (image S) :=
    let inf := info_of img in
    if negb (alpha inf) then map_pixels f img else
    let! sz := size inf in
    let! d := mmap (fun i =>
                let! px := img_index img i in
                let! cs := px_channels_without_alpha p px in
                let! out := f cs in
                let! a := px_alpha p px in
                let! b := g a in
                Ret (out ++ [b])) (zrange 0 sz) in
    let d := concat d in
    let! ch := idiv U32 (cast U32 (len d)) sz in
    Ret (Image (Info (width inf) (height inf) (cast U8 ch) (alpha inf)) d).

  (** mod.rs:453-465 *)
  Definition map_channels {T S} (f : T -> outcome S) (img : image T) : outcome (image S) :=
    let! fs := full_size (info_of img) in
    let! d := mmap (fun i => let! c := vget (data img) i in f c) (zrange 0 fs) in
    Ret (Image (info_of img) d).

  (** mod.rs:470-486 *)
  Definition map_channels_if_alpha {T S} (f g : T -> outcome S) (img : image T)
    : outcome (image S) :=
    if negb (alpha (info_of img)) then map_channels f img else
    let! _ := full_size (info_of img) in
    let! sz := size (info_of img) in
    let! d := mmap (fun i => let! px := img_index img i in px_map_alpha p f g px)
                   (zrange 0 sz) in
    Ret (Image (info_of img) (concat d)).

  (** mod.rs:489-498 *)
  Definition apply_pixels {T} (f : list T -> outcome (list T)) (img : image T)
    : outcome (image T) :=
    let! sz := size (info_of img) in
    mfold (fun im i =>
             let! px := img_index im i in
             let! out := f px in
             set_pixel_indexed im i out) (zrange 0 sz) img.

  (** mod.rs:503-518 *)
  Definition apply_pixels_if_alpha {T} (f : list T -> outcome (list T)) (g : T -> outcome T)
      (img : image T) : outcome (image T) :=
    if negb (alpha (info_of img)) then apply_pixels f img else
    let! sz := size (info_of img) in
    mfold (fun im i =>
             let! px := img_index im i in
             let! cs := px_channels_without_alpha p px in
             let! out := f cs in
             let! a := px_alpha p px in
             let! b := g a in
             set_pixel_indexed im i (out ++ [b])) (zrange 0 sz) img.

  (** mod.rs:521-526 *)
  Definition apply_channels {T} (f : T -> outcome T) (img : image T) : outcome (image T) :=
    let! fs := full_size (info_of img) in
    let! d := mfold (fun d i => let! c := vget d i in
                                let! c' := f c in
                                vset d i c') (zrange 0 fs) (data img) in
    Ret (Image (info_of img) d).

  (** mod.rs:531-542 *)
  Definition apply_channels_if_alpha {T} (f g : T -> outcome T) (img : image T)
    : outcome (image T) :=
    if negb (alpha (info_of img)) then apply_channels f img else
    let! sz := size (info_of img) in
    mfold (fun im i => img_index_mut im i (px_apply_alpha p f g)) (zrange 0 sz) img.

  (** mod.rs:545-550 *)
  Definition edit_channel {T} (f : T -> outcome T) (k : Z) (img : image T)
    : outcome (image T) :=
    let! fs := full_size (info_of img) in
    let! is := zrange_step k fs (channels (info_of img)) in
    let! d := mfold (fun d i => let! c := vget d i in
                                let! c' := f c in
                                vset d i c') is (data img) in
    Ret (Image (info_of img) d).

  (** ** src/image/sub_image.rs *)

  (** sub_image.rs:52-54 *)
  Definition sub_index {T} (s : subimage T) (i : Z) : outcome (list T) := vget (sub_data s) i.

  (** sub_image.rs:42-46 *)
  Definition sub_get_pixel {T} (s : subimage T) (x y : Z) : outcome (list T) :=
    check_xy x y (width (sub_info s)) (height (sub_info s)) ;!
    let! a := imul p U32 y (width (sub_info s)) in
    let! b := iadd p U32 a x in
    sub_index s b.

  (** sub_image.rs:26-34 *)
  Definition sub_to_vec {T} (s : subimage T) : outcome (list T) :=
    let! sz := size (sub_info s) in
    mfold (fun acc i => let! px := sub_index s i in Ret (acc ++ px)) (zrange 0 sz) [].

  (** ** src/image/pixel_iter.rs *)

  (** pixel_iter.rs:29-35 (the image reference is passed separately) *)
  Record pixel_iter : Type := PixelIter { it_x : Z; it_y : Z; it_xmax : Z; it_ymax : Z }.

  (** pixel_iter.rs:38-46, 75-81 *)
  Definition iter_new {T} (img : image T) : outcome pixel_iter :=
    let! xm := isub p U32 (width (info_of img)) 1 in
    let! ym := isub p U32 (height (info_of img)) 1 in
    Ret (PixelIter 0 0 xm ym).

  (** pixel_iter.rs:52-67 *)
  Definition iter_next {T} (img : image T) (it : pixel_iter)
    : outcome (option (Z * Z * list T) * pixel_iter) :=
    let emit x y :=
      let! x' := iadd p U32 x 1 in
      let! px := get_pixel img x y in
      Ret (Some (x, y, px), PixelIter x' y (it_xmax it) (it_ymax it)) in
    if it_xmax it <? it_x it then
      if it_ymax it <=? it_y it then Ret (None, it)
      else let! y' := iadd p U32 (it_y it) 1 in emit 0 y'
    else emit (it_x it) (it_y it).

  (** pixel_iter.rs:69-72 *)
  Definition iter_size_hint (it : pixel_iter) : outcome (Z * option Z) :=
    let! a := iadd p U32 (it_xmax it) 1 in
    let! b := iadd p U32 (it_ymax it) 1 in
    let! s := imul p U32 a b in
    Ret (s, Some s).

  (** ** src/image/from_impl.rs *)

  (** from_impl.rs:3-7 *)
  Definition from_u8_f32 (img : image Z) : outcome (image f32) :=
    map_channels (fun c => Ret (f32_of_Z c)) img.
  (** from_impl.rs:9-43: u8, u16, u32, u64, u128, usize to f64 (one definition: `as f64`
      is the same operation on each of these types) *)
  Definition from_uint_f64 (img : image Z) : outcome (image f64) :=
    map_channels (fun c => Ret (f64_of_Z c)) img.
  (** from_impl.rs:45-49 *)
  Definition from_f32_f64 (img : image f32) : outcome (image f64) :=
    map_channels (fun c => Ret (f64_of_f32 c)) img.
  (** from_impl.rs:51-55 *)
  Definition from_f64_u8 (img : image f64) : outcome (image Z) :=
    map_channels (fun c => Ret (float_to_int U8 (f64_round c))) img.
  (** from_impl.rs:57-61 *)
  Definition from_f32_u8 (img : image f32) : outcome (image Z) :=
    map_channels (fun c => Ret (f32_to_int U8 (f32_round c))) img.
End Img.
