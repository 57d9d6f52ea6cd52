(** * Specification: the errors a call can return *)
From Verif.Model Require Import Base.
Open Scope Z_scope.

(** the call does not return [Err(..)] *)
Definition never_err {A} (o : outcome A) : Prop := forall e, o <> Fail e.
(** if the call returns [Err(e)], then [e] is the error for a wrong argument *)
Definition only_invalid_arg {A} (o : outcome A) : Prop := forall e, o = Fail e -> e = InvalidArgError.
(** the call returns [Err(InvalidArgError)] exactly under the condition [c], and no other error *)
Definition err_exactly (c : Prop) {A} (o : outcome A) : Prop := (c -> o = Fail InvalidArgError) /\ (~ c -> never_err o).
