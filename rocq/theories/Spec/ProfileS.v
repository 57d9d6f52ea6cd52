(** * Specification: what the two build profiles may do on the same call *)
From Verif.Model Require Import Base.
Open Scope Z_scope.

(** [call p] is what one call does when the library was built with profile [p].  In a debug build it panics (an arithmetic
    overflow, among other reasons), or it does exactly what it does in a release build: the same value, the same error,
    the same panic.  And no build has undefined behaviour. *)
Definition same_in_release {A} (call : profile -> outcome A) : Prop :=
  call Debug = Panic \/ call Debug = call Release.
Definition defined {A} (call : profile -> outcome A) : Prop := forall p, call p <> UB.
Definition consistent {A} (call : profile -> outcome A) : Prop := same_in_release call /\ defined call.

(** the arithmetic of a channel type *)
Definition consistent_number {T} (N : number T) : Prop :=
  forall a b, consistent (fun p => n_add N p a b) /\ consistent (fun p => n_sub N p a b) /\ consistent (fun p => n_mul N p a b)
    /\ consistent (fun p => n_div N p a b) /\ consistent (fun p => n_rem N p a b).
