(** * Specification vocabulary for per-sample operations *)
From Verif.Model Require Import Base Image.
From Verif.Spec Require Import ImageS.
Open Scope Z_scope.

(** sample c of the pixel at (x, y) *)
Definition sample {T} (img : image T) (x y c : Z) : option T := nth_error (pixel_at img x y) (Z.to_nat c).
(** the alpha sample, if there is one, is the last sample of a pixel *)
Definition is_alpha (inf : info) (c : Z) : bool := alpha inf && (c =? channels inf - 1).

(** [out] is a well-formed image of the same shape as [img]; every colour sample s has become
    f s and every alpha sample s has become g s *)
Definition recolored {T S} (f g : T -> S) (img : image T) (out : image S) : Prop :=
  info_of out = info_of img /\ wf out /\
  forall x y c s, inside img x y -> 0 <= c -> sample img x y c = Some s ->
    sample out x y c = Some (if is_alpha (info_of img) c then g s else f s).

(** [out] has the size and alpha flag of [img]; every colour part cs of a pixel has become f cs
    (k samples) and every alpha sample a has become g a *)
Definition repixeled {T S} (f : list T -> list S) (g : T -> S) (k : Z) (img : image T) (out : image S) : Prop :=
  wf out /\
  info_of out = Info (width (info_of img)) (height (info_of img))
                     (k + if alpha (info_of img) then 1 else 0) (alpha (info_of img)) /\
  forall x y, inside img x y ->
    if alpha (info_of img)
    then forall cs a, pixel_at img x y = cs ++ [a] -> pixel_at out x y = f cs ++ [g a]
    else pixel_at out x y = f (pixel_at img x y).

(** number of colour channels *)
Definition colors (inf : info) : Z := channels inf - if alpha inf then 1 else 0.

(** clamp to a byte *)
Definition byte (v : Z) : Z := Z.max 0 (Z.min 255 v).

(** [out] has the shape of [img] and the same alpha samples; a colour sample s has stayed s or become s - 1 *)
Definition loses_at_most_one (img out : image Z) : Prop :=
  info_of out = info_of img /\ wf out /\
  forall x y c s, inside img x y -> 0 <= c -> sample img x y c = Some s ->
    exists s', sample out x y c = Some s' /\ 0 <= s' <= 255 /\
      (if is_alpha (info_of img) c then s' = s else s' = s \/ s' = s - 1).
