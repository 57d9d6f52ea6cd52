(** * Specification vocabulary for iteration, neighbourhoods and histories of operations *)
From Verif.Model Require Import Base Image.
From Verif.Spec Require Import ImageS.
Open Scope Z_scope.

(** Call `next()` n times; the results in order, and the final iterator state. *)
Fixpoint call_next p {T} (img : image T) (it : pixel_iter) (n : nat)
  : outcome (list (option (Z * Z * list T)) * pixel_iter) :=
  match n with
  | O => Ret ([], it)
  | S n' => let! '(r, it') := iter_next p img it in
            let! '(rs, it'') := call_next p img it' n' in
            Ret (r :: rs, it'')
  end.

(** What the k-th call of next() should return. *)
Definition kth_item {T} (img : image T) (k : nat) : option (Z * Z * list T) :=
  let w := width (info_of img) in
  let h := height (info_of img) in
  let k := Z.of_nat k in
  if k <? w * h then Some (k mod w, k / w, pixel_at img (k mod w) (k / w)) else None.

(** nearest coordinate inside [0, bound) *)
Definition clamp_coord (bound c : Z) : Z := Z.max 0 (Z.min (bound - 1) c).

(** ** Histories of mutating calls *)
Inductive op (T : Type) : Type :=
| SetPixel (x y : Z) (px : list T)
| SetPixelIndexed (i : Z) (px : list T)
| ApplyChannels (f : T -> T)
| EditChannel (f : T -> T) (k : Z).
Arguments SetPixel {T}. Arguments SetPixelIndexed {T}.
Arguments ApplyChannels {T}. Arguments EditChannel {T}.

Definition run_op p {T} (img : image T) (o : op T) : outcome (image T) :=
  match o with
  | SetPixel x y px => set_pixel p img x y px
  | SetPixelIndexed i px => set_pixel_indexed p img i px
  | ApplyChannels f => apply_channels p (fun c => Ret (f c)) img
  | EditChannel f k => edit_channel p (fun c => Ret (f c)) k img
  end.

(** arguments are values of their Rust types (an index so large that index*channels does not
    fit in 64 bits is excluded, see the theorem on wrapping indices) *)
Definition op_typed {T} (o : op T) : Prop :=
  match o with
  | SetPixel x y _ => 0 <= x <= u32_max /\ 0 <= y <= u32_max
  | SetPixelIndexed i _ => 0 <= i < 2 ^ 55
  | ApplyChannels _ => True
  | EditChannel _ k => 0 <= k
  end.

(** which calls are legal on an image of the given info *)
Definition op_legal {T} (inf : info) (o : op T) : Prop :=
  match o with
  | SetPixel x y px => x < width inf /\ y < height inf /\ len px = channels inf
  | SetPixelIndexed i px => i < width inf * height inf /\ len px = channels inf
  | ApplyChannels _ => True
  | EditChannel _ _ => True
  end.

(** the mathematical effect on a function from (x, y, channel) to samples *)
Definition cells (T : Type) : Type := Z -> Z -> Z -> option T.

Definition cells_of {T} (img : image T) : cells T :=
  fun x y c => nth_error (pixel_at img x y) (Z.to_nat c).

Definition op_effect {T} (inf : info) (g : cells T) (o : op T) : cells T :=
  match o with
  | SetPixel x y px => fun x' y' c =>
      if (x' =? x) && (y' =? y) then nth_error px (Z.to_nat c) else g x' y' c
  | SetPixelIndexed i px => fun x' y' c =>
      if y' * width inf + x' =? i then nth_error px (Z.to_nat c) else g x' y' c
  | ApplyChannels f => fun x' y' c => option_map f (g x' y' c)
  | EditChannel f k => fun x' y' c =>
      (* sample number n of the row-major buffer *)
      let n := (y' * width inf + x') * channels inf + c in
      if (k <=? n) && ((n - k) mod channels inf =? 0) then option_map f (g x' y' c) else g x' y' c
  end.
