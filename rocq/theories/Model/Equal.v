(** * Equality of images: the derived PartialEq of [Image<T>], src/image/mod.rs:71 *)
From Verif.Model Require Export Base Float Image.
Open Scope Z_scope.

(** `Vec<T> == Vec<T>` (slices): the same length and pairwise equal elements; the field data,
    src/image/mod.rs:74 *)
Fixpoint vec_eqb {T} (N : number T) (a b : list T) : bool :=
  match a, b with
  | [], [] => true
  | x :: a, y :: b => n_eqb N x y && vec_eqb N a b
  | _, _ => false
  end.

(** derived `Image<T> == Image<T>`, src/image/mod.rs:71-75: the fields info and data *)
Definition image_eqb {T} (N : number T) (a b : image T) : bool :=
  info_eqb (info_of a) (info_of b) && vec_eqb N (data a) (data b).
