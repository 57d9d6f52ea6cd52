(** * Specification vocabulary for images.

    Independent of the model's functions: only the record of Model/Image.v
    (info and flat buffer) is used. *)
From Verif.Model Require Import Base Image.
Open Scope Z_scope.

Definition u32_max : Z := 4294967295.

(** A well-formed image: field ranges of the Rust types, and a buffer of exactly
    width*height*channels samples, a number that fits in u32. *)
Record wf {T} (img : image T) : Prop := {
  wf_w : 0 <= width (info_of img) <= u32_max;
  wf_h : 0 <= height (info_of img) <= u32_max;
  wf_c : 0 <= channels (info_of img) <= 255;
  wf_size : width (info_of img) * height (info_of img) <= u32_max;
  wf_full : width (info_of img) * height (info_of img) * channels (info_of img) <= u32_max;
  wf_data : len (data img) = width (info_of img) * height (info_of img) * channels (info_of img)
}.

Definition inside {T} (img : image T) (x y : Z) : Prop :=
  0 <= x < width (info_of img) /\ 0 <= y < height (info_of img).

(** The pixel at column x, row y of the row-major buffer. *)
Definition pixel_at {T} (img : image T) (x y : Z) : list T :=
  let c := Z.to_nat (channels (info_of img)) in
  firstn c (skipn (Z.to_nat ((y * width (info_of img) + x) * channels (info_of img))) (data img)).

(** The pixel function of an image: what [a] shows is what [g] says. *)
Definition shows {T} (img : image T) (g : Z -> Z -> list T) : Prop :=
  forall x y, inside img x y -> pixel_at img x y = g x y.

(** every sample of the buffer satisfies P *)
Definition samples {T} (P : T -> Prop) (img : image T) : Prop := Forall P (data img).
Definition is_u8 (c : Z) : Prop := 0 <= c <= 255.

(** A pixel of an image with alpha: colour part and alpha sample. *)
Definition split_alpha {T} (px : list T) (cs : list T) (a : T) : Prop := px = cs ++ [a].

(** boolean version of [wf], used for concrete examples *)
Definition wfb {T} (img : image T) : bool :=
  let i := info_of img in
  (0 <=? width i) && (width i <=? u32_max) && (0 <=? height i) && (height i <=? u32_max)
  && (0 <=? channels i) && (channels i <=? 255)
  && (width i * height i <=? u32_max)
  && (width i * height i * channels i <=? u32_max)
  && (len (data img) =? width i * height i * channels i).

(** the shape of a well-formed image *)
Definition info_ok (i : info) : Prop :=
  0 <= width i <= u32_max /\ 0 <= height i <= u32_max /\ 0 <= channels i <= 255
  /\ width i * height i <= u32_max /\ width i * height i * channels i <= u32_max.
