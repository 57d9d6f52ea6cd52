(** * src/convert.rs *)
From Verif.Model Require Export Image.
Open Scope Z_scope.

Section Convert.
  Context (p : profile).

  (** convert.rs:7-11 *)
  Definition scale_channels (input : image f32) (current_min scaled_min current_max scaled_max : f32) : outcome (image f32) :=
    map_channels p (fun channel => Ret
      (f32_add (f32_mul (f32_div (f32_sub channel current_min) (f32_sub current_max current_min))
                        (f32_sub scaled_max scaled_min)) scaled_min)) input.

  (** the closure of convert.rs:16 *)
  Definition to_u8_scaled (scale : Z) (channel : f32) : Z :=
    f32_to_int U8 (f32_round (f32_mul (f32_div channel (f32_of_Z scale)) (f32_of_Z 255))).
  (** convert.rs:15-17 *)
  Definition f32_to_u8_scale (input : image f32) (scale : Z) : outcome (image Z) :=
    map_channels p (fun channel => Ret (to_u8_scaled scale channel)) input.

  (** the closure of convert.rs:22 *)
  Definition to_f32_scaled (scale channel : Z) : f32 :=
    f32_mul (f32_div (f32_of_Z channel) (f32_of_Z 255)) (f32_of_Z scale).
  (** convert.rs:21-23 *)
  Definition u8_to_f32_scale (input : image Z) (scale : Z) : outcome (image f32) :=
    map_channels p (fun channel => Ret (to_f32_scaled scale channel)) input.
End Convert.
