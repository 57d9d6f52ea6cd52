(** * src/io/mod.rs

    The crate `image` (decoders, encoders) and the file system are an oracle [codec]; what is modelled
    is the wrapper: the dispatch on layouts and what is handed to and taken from the codec.  [W] is
    the state of the file system. *)
From Coq Require Import String.
From Verif.Model Require Export Base Image.
Open Scope Z_scope.

(** image::ColorType of image 0.23
    io/mod.rs:29-37. *)
Inductive color_type : Type := L8 | La8 | Rgb8 | Rgba8 | L16 | La16 | Rgb16 | Rgba16 | Bgr8 | Bgra8.

(** a decoded picture, or a view handed to an encoder: layout, dimensions and bytes in memory order
    (`DynamicImage::color`, `dimensions`, `as_bytes`; `ImageBuffer`)
    io/mod.rs:41-87. *)
Record picture : Type := Picture { pic_color : color_type; pic_width : Z; pic_height : Z; pic_bytes : list Z }.

(** the calls io/mod.rs makes to the crate `image`: Reader::open/decode (io/mod.rs:41-47) and
    ImageBuffer::save (io/mod.rs:50-87) *)
Record codec (W : Type) : Type := Codec {
  open_decode : W -> string -> outcome picture;        (* Reader::open(f)?.decode()? *)
  save : W -> string -> picture -> W * outcome unit    (* ImageBuffer::save(f) *)
}.
Arguments open_decode {W}. Arguments save {W}.

(** io/mod.rs:29-37 *)
Definition from_color_type (color : color_type) : outcome (Z * bool) :=
  match color with
  | L8 => Ret (1, false)
  | La8 => Ret (2, true)
  | Rgb8 | Bgr8 => Ret (3, false)
  | Rgba8 | Bgra8 => Ret (4, true)
  | _ => Fail UnsupportedColorTypeError
  end.

(** io/mod.rs:41-47 *)
Definition read {W} (k : codec W) (w : W) (filename : string) : outcome (image Z) :=
  let! img := open_decode k w filename in
  let! '(channels, alpha) := from_color_type (pic_color img) in
  Ret (from_slice (pic_width img) (pic_height img) channels alpha (pic_bytes img)).

(** `ImageBuffer::from_raw(width, height, data)` for a pixel type of [n] bytes: None if the container is
    smaller than width*height*n (computed without overflow)
    io/mod.rs:56, 61, 70, 75. *)
Definition from_raw (color : color_type) (n width height : Z) (data : list Z) : outcome picture :=
  if width * height * n <=? len data then Ret (Picture color width height data) else Fail ImageWriteError.

(** the four identical arms of io/mod.rs:55-79: `from_raw(..).ok_or_else(..)?.save(filename)?` *)
Definition write_as {W} (k : codec W) (w : W) (filename : string) (pic : outcome picture) : W * outcome unit :=
  match pic with
  | Ret pic => save k w filename pic
  | Fail e => (w, Fail e)
  | Panic => (w, Panic)
  | UB => (w, UB)
  end.

(** io/mod.rs:50-84 *)
Definition write {W} (k : codec W) (w : W) (input : image Z) (filename : string) : W * outcome unit :=
  let inf := info_of input in
  let raw color n := from_raw color n (width inf) (height inf) (data input) in
  if alpha inf then
    if channels inf =? 2 then write_as k w filename (raw La8 2)
    else if channels inf =? 4 then write_as k w filename (raw Rgba8 4)
    else (w, Fail UnsupportedColorTypeError)
  else
    if channels inf =? 1 then write_as k w filename (raw L8 1)
    else if channels inf =? 3 then write_as k w filename (raw Rgb8 3)
    else (w, Fail UnsupportedColorTypeError).
