(** * C60: io::read and io::write *)
From Coq Require Import String.
From Verif.Model Require Import Io.
From Verif.Spec Require Import ImageS.
From Verif.Proofs Require Import BaseL ImageL.
From Verif.Props Require Import ImageP.
Open Scope Z_scope.

(** the layouts a picture file can have here: samples per pixel, and whether the last one is alpha *)
Definition layout_of (c : color_type) : option (Z * bool) :=
  match c with
  | L8 => Some (1, false) | La8 => Some (2, true) | Rgb8 => Some (3, false) | Rgba8 => Some (4, true)
  | _ => None
  end.
(** [pic] shows the same pixels as [img]: same dimensions, layout and bytes *)
Definition same_picture (img : image Z) (pic : picture) : Prop :=
  pic_width pic = width (info_of img) /\ pic_height pic = height (info_of img) /\
  layout_of (pic_color pic) = Some (channels (info_of img), alpha (info_of img)) /\ pic_bytes pic = data img.
Definition supported (inf : info) : Prop := In (channels inf, alpha inf) [(1, false); (2, true); (3, false); (4, true)].
(** saving a gray or RGB picture (with or without alpha) and opening it again gives the same picture *)
Definition lossless {W} (k : codec W) : Prop :=
  forall w f pic w', layout_of (pic_color pic) <> None -> save k w f pic = (w', Ret tt) -> open_decode k w' f = Ret pic.

(** a supported, well-formed image: the encoder receives exactly its picture, and its answer is returned *)
Theorem C60_write_supported {W} (k : codec W) w (img : image Z) f :
  wf img -> supported (info_of img) ->
  exists pic, same_picture img pic /\ write k w img f = save k w f pic.
Proof.
  intros Hwf Hs. pose proof (wf_data _ Hwf) as Hd. unfold write, same_picture.
  destruct (info_of img) as [iw ih c a]. cbn [width height channels alpha] in *. unfold supported in Hs. cbn [channels alpha In] in Hs.
  assert (R : forall col n, iw * ih * c = iw * ih * n -> from_raw col n iw ih (data img) = Ret (Picture col iw ih (data img))).
  { intros col n E. unfold from_raw. rewrite (proj2 (Z.leb_le _ _)) by lia. reflexivity. }
  destruct Hs as [E|[E|[E|[E|[]]]]]; injection E as <- <-; cbn [Z.eqb Pos.eqb]; rewrite R by reflexivity; cbn [write_as];
  eexists; (split; [|reflexivity]); cbn; auto.
Qed.
(** any other layout, or a buffer that is too short: an error, and the file system is untouched *)
Theorem C60_write_unsupported {W} (k : codec W) w (img : image Z) f :
  ~ supported (info_of img) -> write k w img f = (w, Fail UnsupportedColorTypeError).
Proof.
  intros Hs. unfold write. unfold supported in Hs. cbn [In] in Hs.
  destruct (alpha (info_of img)).
  - destruct (Z.eqb_spec (channels (info_of img)) 2) as [E|_]; [exfalso; apply Hs; rewrite E; auto|].
    destruct (Z.eqb_spec (channels (info_of img)) 4) as [E|_]; [exfalso; apply Hs; rewrite E; auto|]. reflexivity.
  - destruct (Z.eqb_spec (channels (info_of img)) 1) as [E|_]; [exfalso; apply Hs; rewrite E; auto|].
    destruct (Z.eqb_spec (channels (info_of img)) 3) as [E|_]; [exfalso; apply Hs; rewrite E; auto|]. reflexivity.
Qed.
Theorem C60_write_short_buffer {W} (k : codec W) w (img : image Z) f :
  supported (info_of img) -> len (data img) < width (info_of img) * height (info_of img) * channels (info_of img) ->
  write k w img f = (w, Fail ImageWriteError).
Proof.
  intros Hs Hl. unfold write. destruct (info_of img) as [iw ih c a]. cbn [width height channels alpha] in *.
  unfold supported in Hs. cbn [channels alpha In] in Hs.
  assert (R : forall col n, iw * ih * c = iw * ih * n -> from_raw col n iw ih (data img) = Fail ImageWriteError).
  { intros col n E. unfold from_raw. rewrite (proj2 (Z.leb_gt _ _)) by lia. reflexivity. }
  destruct Hs as [E|[E|[E|[E|[]]]]]; injection E as <- <-; cbn [Z.eqb Pos.eqb]; rewrite R by reflexivity; reflexivity.
Qed.

(** reading a gray or RGB picture gives an image with the same pixels; the bytes of a BGR picture are
    taken over unchanged; 16-bit pictures are an error *)
Theorem C60_read {W} (k : codec W) w f pic : open_decode k w f = Ret pic ->
  match layout_of (pic_color pic) with
  | Some _ => exists img, read k w f = Ret img /\ same_picture img pic
  | None => match pic_color pic with
            | Bgr8 => read k w f = Ret (Image (Info (pic_width pic) (pic_height pic) 3 false) (pic_bytes pic))
            | Bgra8 => read k w f = Ret (Image (Info (pic_width pic) (pic_height pic) 4 true) (pic_bytes pic))
            | _ => read k w f = Fail UnsupportedColorTypeError
            end
  end.
Proof.
  intros E. unfold read. rewrite E, bind_Ret. unfold same_picture.
  destruct (pic_color pic); cbn; auto; eexists; (split; [reflexivity|]); cbn; auto.
Qed.
Theorem C60_read_fails {W} (k : codec W) w f e : open_decode k w f = Fail e -> read k w f = Fail e.
Proof. intros E. unfold read. rewrite E. reflexivity. Qed.

(** write, then read through a lossless codec: the same image *)
Theorem C60_round_trip {W} (k : codec W) w w' (img : image Z) f :
  lossless k -> wf img -> supported (info_of img) -> write k w img f = (w', Ret tt) -> read k w' f = Ret img.
Proof.
  intros Hk Hwf Hs E. destruct (C60_write_supported k w img f Hwf Hs) as [pic [[Pw [Ph [Pl Pb]]] Ew]].
  rewrite Ew in E. assert (Eo : open_decode k w' f = Ret pic) by (apply (Hk w f pic w'); [congruence|exact E]).
  unfold read. rewrite Eo, bind_Ret. unfold from_slice. rewrite Pw, Ph, Pb.
  destruct img as [[iw ih c a] d]. cbn [info_of data width height channels alpha] in *.
  destruct (pic_color pic); cbn in Pl |- *; try discriminate; injection Pl as <- <-; reflexivity.
Qed.

(** BGR pictures are read without reordering: channel 0 of the image holds the blue samples.
    [true_color]: the (red, green, blue) of pixel i of a picture *)
Definition true_color (pic : picture) (i : nat) : option (Z * Z * Z) :=
  let at3 o := match nth_error (pic_bytes pic) (3 * i + o) with Some v => v | None => 0 end in
  match pic_color pic with
  | Rgb8 => Some (at3 0%nat, at3 1%nat, at3 2%nat)
  | Bgr8 => Some (at3 2%nat, at3 1%nat, at3 0%nat)
  | _ => None
  end.
Theorem C60_bgr_refuted : ~ (forall W (k : codec W) w f pic img r g b, open_decode k w f = Ret pic -> read k w f = Ret img ->
  0 < pic_width pic -> 0 < pic_height pic -> true_color pic 0 = Some (r, g, b) -> pixel_at img 0 0 = [r; g; b]).
Proof.
  intros H. set (pic := Picture Bgr8 1 1 [1; 2; 3]).
  specialize (H unit (Codec unit (fun _ _ => Ret pic) (fun w _ _ => (w, Ret tt))) tt EmptyString pic
     (Image (Info 1 1 3 false) [1; 2; 3]) 3 2 1 eq_refl eq_refl eq_refl eq_refl eq_refl).
  discriminate H.
Qed.

(** a lossless codec: a file system that stores pictures *)
Definition ex_codec : codec (string -> option picture) :=
  Codec _ (fun w f => match w f with Some pic => Ret pic | None => Fail IoError end)
        (fun w f pic => (fun g => if String.eqb g f then Some pic else w g, Ret tt)).
Example C60_example : lossless ex_codec /\ wf ex_rgba /\ supported (info_of ex_rgba)
  /\ (let (w', r) := write ex_codec (fun _ => None) ex_rgba "a.png"%string in r = Ret tt /\ read ex_codec w' "a.png"%string = Ret ex_rgba)
  /\ ~ supported (Info 1 1 2 false).
Proof.
  split; [|split; [exact ex_rgba_wf|split; [cbn; auto|split; [split; reflexivity|]]]].
  - intros w f pic w' _ E. injection E as <-. cbn. rewrite String.eqb_refl. reflexivity.
  - cbn. intros [E|[E|[E|[E|[]]]]]; discriminate E.
Qed.
