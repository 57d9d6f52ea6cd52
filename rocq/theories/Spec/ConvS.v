(** * Specification of the colour conversions: the published formulas, evaluated in f32

    Every operation is an IEEE single-precision operation rounded to nearest even; the decimal
    constants are those of the source, rounded to f32; [pow] is the library's power function.
    The only thing that is not published: the gamma is 2.2, where the sRGB standard has 2.4. *)
From Verif.Model Require Import Base Float.
Open Scope Z_scope.

Declare Scope f32_scope.
Delimit Scope f32_scope with F.
Infix "+" := f32_add : f32_scope.
Infix "-" := f32_sub : f32_scope.
Infix "*" := f32_mul : f32_scope.
Infix "/" := f32_div : f32_scope.
Notation "# n" := (f32_of_Z n) (at level 1, format "# n") : f32_scope.
(** "dec n k" is the f32 nearest to n / 10^k *)
Notation dec := f32_dec.

Section Formulas.
  Context (pow : f32 -> f32 -> f32).
  Open Scope f32_scope.

  (** sRGB byte -> linear value *)
  Definition srgb_decode (v : Z) : f32 :=
    if (v <=? 10)%Z then #v / #3294 else pow ((#v + dec 14025 3) / dec 269025 3) (dec 22 1).

  (** linear value -> sRGB byte; the conversion to u8 truncates and saturates *)
  Definition srgb_encode (x : f32) : Z :=
    f32_to_int U8 (if f32_leb x (dec 31308 7) then x * dec 32946 1
                   else dec 269025 3 * pow x (#1 / dec 22 1) - dec 14025 3).

  (** product of a 3x3 matrix and a colour triple *)
  Definition mat3x3 (a11 a12 a13 a21 a22 a23 a31 a32 a33 : f32) (cs : list f32) : list f32 :=
    match cs with
    | [x; y; z] => [#0 + a11 * x + a12 * y + a13 * z; #0 + a21 * x + a22 * y + a23 * z; #0 + a31 * x + a32 * y + a33 * z]
    | _ => []
    end.
  Definition lin_to_xyz : list f32 -> list f32 :=
    mat3x3 (dec 4124564 7) (dec 3575761 7) (dec 1804375 7)
           (dec 2126729 7) (dec 7151522 7) (dec 721750 7)
           (dec 193339 7) (dec 1191920 7) (dec 9503041 7).
  Definition xyz_to_lin : list f32 -> list f32 :=
    mat3x3 (dec 32404542 7) (dec (-15371385) 7) (dec (-4985314) 7)
           (dec (-9692660) 7) (dec 18760108 7) (dec 415560 7)
           (dec 556434 7) (dec (-2040259) 7) (dec 10572252 7).

  (** the CIELAB function and its inverse, with delta = 6/29 *)
  Definition delta : f32 := #6 / #29.
  Definition lab_f (t : f32) : f32 :=
    if f32_ltb (pow delta #3) t then pow t (#1 / #3) else t / (#3 * delta * delta) + #4 / #29.
  Definition lab_f_inv (t : f32) : f32 :=
    if f32_ltb delta t then pow t #3 else #3 * delta * delta * (t - #4 / #29).

  (** XYZ in [0,1] -> L*a*b* and back, for the white point (xn, yn, zn) in percent *)
  Definition xyz_to_lab (white : f32 * f32 * f32) (cs : list f32) : list f32 :=
    let '(xn, yn, zn) := white in
    match cs with
    | [x; y; z] =>
        let fx := lab_f (x * #100 / xn) in let fy := lab_f (y * #100 / yn) in let fz := lab_f (z * #100 / zn) in
        [#116 * fy - #16; #500 * (fx - fy); #200 * (fy - fz)]
    | _ => []
    end.
  Definition lab_to_xyz (white : f32 * f32 * f32) (cs : list f32) : list f32 :=
    let '(xn, yn, zn) := white in
    match cs with
    | [l; a; b] =>
        let n := (l + #16) / #116 in
        [xn * lab_f_inv (n + a / #500) / #100; yn * lab_f_inv n / #100; zn * lab_f_inv (n - b / #200) / #100]
    | _ => []
    end.

  (** compositions *)
  Definition srgb_to_xyz (cs : list Z) : list f32 := lin_to_xyz (map srgb_decode cs).
  Definition xyz_to_srgb (cs : list f32) : list Z := map srgb_encode (xyz_to_lin cs).
  Definition srgb_to_lab w (cs : list Z) : list f32 := xyz_to_lab w (srgb_to_xyz cs).
  Definition lab_to_srgb w (cs : list f32) : list Z := xyz_to_srgb (lab_to_xyz w cs).

  (** edit the lightness of an sRGB colour: to CIELAB, apply f to L*, back *)
  Definition edit_lightness w (f : f32 -> f32) (cs : list Z) : list Z :=
    match srgb_to_lab w cs with l :: ab => lab_to_srgb w (f l :: ab) | [] => [] end.
End Formulas.

(** white points in percent *)
Definition white_d50 : f32 * f32 * f32 := (f32_dec 964212 4, f32_of_Z 100, f32_dec 825188 4).
Definition white_d65 : f32 * f32 * f32 := (f32_dec 950489 4, f32_of_Z 100, f32_dec 1088840 4).

(** RGB bytes -> HSV in f32 and back *)
Section Hsv.
  Open Scope f32_scope.
  (** hue of an RGB colour in turns *)
  Definition wrap_turn (h : f32) : f32 := if f32_ltb h #0 then h + #1 else if f32_ltb #1 h then h - #1 else h.
  Definition hsv_of_rgb (cs : list Z) : list f32 :=
    match cs with
    | [r; g; b] =>
        let mx := Z.max r (Z.max g b) in let mn := Z.min r (Z.min g b) in
        let range := #(mx - mn) / #255 in
        let hue := if (mx =? mn)%Z then #0
                   else if (mx =? r)%Z then (#g / #255 - #b / #255) / range
                   else if (mx =? g)%Z then (#b / #255 - #r / #255) / range + #2
                   else (#r / #255 - #g / #255) / range + #4 in
        [wrap_turn (hue / #6); if (mx =? 0)%Z then #0 else range / (#mx / #255); #mx / #255]
    | _ => []
    end.
  Definition to_byte (x : f32) : Z := f32_to_int U8 (x * #255).
  Definition rgb_of_hsv (cs : list f32) : list Z :=
    match cs with
    | [h; s; v] =>
        let sector := f32_floor (h * #6) in let f := h * #6 - sector in
        let lo := to_byte (v * (#1 - s)) in
        let falling := to_byte (v * (#1 - s * f)) in
        let rising := to_byte (v * (#1 - s * (#1 - f))) in
        let top := to_byte v in
        if f32_eqb s #0 then [top; top; top]
        else nth (Z.to_nat (f32_to_int U8 sector))
                 [[top; rising; lo]; [falling; top; lo]; [lo; top; rising]; [lo; falling; top]; [rising; lo; top]]
                 [top; lo; falling]
    | _ => []
    end.
End Hsv.
