(** * Specification: selecting, reordering and repeating channels *)
From Verif.Model Require Import Base Image.
From Verif.Spec Require Import ImageS.
Open Scope Z_scope.

(** [px'] consists of the samples number [ks] of [px], in this order *)
Definition picks {A} (ks : list nat) (px px' : list A) : Prop := map Some px' = map (nth_error px) ks.

(** [img'] shows the channels [ks] of [img] (any choice, in any order, at most as many as [img] has;
    the alpha flag of [img'] is free) *)
Record selection {T} (ks : list nat) (img img' : image T) : Prop := {
  sl_wf : wf img;
  sl_wf' : wf img';
  sl_w : width (info_of img') = width (info_of img);
  sl_h : height (info_of img') = height (info_of img);
  sl_c : channels (info_of img') = len ks;
  sl_le : 0 < len ks <= channels (info_of img);
  sl_ks : Forall (fun k => Z.of_nat k < channels (info_of img)) ks;
  sl_px : forall x y, inside img x y -> picks ks (pixel_at img x y) (pixel_at img' x y) }.

(** An operation treats the channels separately and alike: what it makes of some channels of an image is
    those channels of what it makes of the image. *)
Definition channelwise {T} (op : image T -> outcome (image T)) : Prop :=
  forall (ks : list nat) (img img' out : image T),
    selection ks img img' -> op img = Ret out -> wf out ->
    exists out', op img' = Ret out' /\ selection ks out out' /\ alpha (info_of out') = alpha (info_of img').
