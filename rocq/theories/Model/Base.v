(** * Base: outcomes, build profiles, machine integers, vectors, loops.

    This file models the Rust *language* features the code of /repo relies on
    (panics, `Result`, overflow checks, indexing, slices, `for` ranges); the
    definitions below cite where each feature is used in /repo/src. *)

From Coq Require Export ZArith List Bool Lia.
Export ListNotations.
Open Scope Z_scope.

(** ** Outcomes *)

(** Error values.  Models src/error/mod.rs:17-38 ([ImgProcError], [ImgIoError]);
    simplification: the message strings are dropped, the constructor is kept. *)
Inductive error : Type :=
| InvalidArgError
| NumericError
| RulinalgError
| UnsupportedFileFormatError
| UnsupportedColorTypeError
| IoError
| ImageReaderError
| ImageWriteError
| OtherError.

(** What one call can do.  [Ret]: normal return; [Fail e]: `Err(e)` of a
    `Result`-returning function; [Panic]: the thread panics; [UB]: undefined
    behaviour, which only `unsafe` code (src/simd.rs) can reach: an access through
    a raw pointer outside the buffer.  Simplification: panic messages are dropped.
    No code of /repo: Rust reference / std. *)
Inductive outcome (A : Type) : Type :=
| Ret (a : A)
| Fail (e : error)
| Panic
| UB.
Arguments Ret {A} a.
Arguments Fail {A} e.
Arguments Panic {A}.
Arguments UB {A}.

(** Sequencing; also the `?` operator (an error or a panic propagates).
    No code of /repo: Rust reference / std. *)
Definition bind {A B} (m : outcome A) (k : A -> outcome B) : outcome B :=
  match m with
  | Ret a => k a
  | Fail e => Fail e
  | Panic => Panic
  | UB => UB
  end.

Notation "'let!' x ':=' e 'in' k" := (bind e (fun x => k))
  (at level 200, x name, e at level 100, k at level 200, right associativity).
Notation "'let!' ' p ':=' e 'in' k" := (bind e (fun x => match x with p => k end))
  (at level 200, p strict pattern, e at level 100, k at level 200, right associativity).
Notation "e ';!' k" := (bind e (fun _ => k)) (at level 190, right associativity).

(** `Result::unwrap`
    No code of /repo: Rust reference / std. *)
Definition unwrap {A} (m : outcome A) : outcome A :=
  match m with Fail _ => Panic | _ => m end.

(** ** Build profile and machine integers *)

(** cargo's dev profile checks integer overflow (panic), the release profile wraps.
    No code of /repo: Rust reference / std. *)
Inductive profile : Type := Debug | Release.

(** a Rust integer type, by its range; no code of /repo (Rust reference, integer types) *)
Record ity : Type := Ity { lo : Z; hi : Z }.
(** `u8`: samples of Image<u8>, channel counts (image/mod.rs:82) *)
Definition U8    : ity := Ity 0 255.
(** `u16`: a type Image<u16> can have (image/mod.rs:86-125) *)
Definition U16   : ity := Ity 0 65535.
(** `u32`: image widths and heights (image/mod.rs:80-81) *)
Definition U32   : ity := Ity 0 4294967295.
(** `u64`: a type Image<u64> can have (image/from_impl.rs:27) *)
Definition U64   : ity := Ity 0 18446744073709551615.
(** `u128`: a type Image<u128> can have (image/mod.rs:86-125) *)
Definition U128  : ity := Ity 0 340282366920938463463374607431768211455.
(** `usize`: 64-bit targets only (trusted base).
    No code of /repo: Rust reference / std. *)
Definition USIZE : ity := U64.
(** `i8`: bytes of the AVX2 intrinsics (simd.rs:30-36) *)
Definition I8    : ity := Ity (-128) 127.
(** `i16`: brightness and saturation amounts (tone.rs:18, 45, 91) *)
Definition I16   : ity := Ity (-32768) 32767.
(** `i32`: counts and sums of median.rs:55-213, 369-562, keys of util/mod.rs:38-55 *)
Definition I32   : ity := Ity (-2147483648) 2147483647.

(** the values of an integer type; no code of /repo *)
Definition in_ity (t : ity) (x : Z) : bool := (lo t <=? x) && (x <=? hi t).

(** `x as t` between integer types: two's complement truncation.
    No code of /repo: Rust reference / std. *)
Definition cast (t : ity) (x : Z) : Z := (x - lo t) mod (hi t - lo t + 1) + lo t.

(** Result of `+`, `-`, `*`, unary `-`, `abs` on type [t] whose mathematical value is [x].
    No code of /repo: Rust reference / std. *)
Definition arith (p : profile) (t : ity) (x : Z) : outcome Z :=
  if in_ity t x then Ret x
  else match p with Debug => Panic | Release => Ret (cast t x) end.

(** integer `+`; no code of /repo (Rust reference, overflow) *)
Definition iadd p t a b := arith p t (a + b).
(** integer `-`; no code of /repo (Rust reference, overflow) *)
Definition isub p t a b := arith p t (a - b).
(** integer `*`; no code of /repo (Rust reference, overflow) *)
Definition imul p t a b := arith p t (a * b).
(** `/` and `%` on integers: truncated; a zero divisor panics in every profile
    (as does MIN / -1).
    No code of /repo: Rust reference / std. *)
Definition idiv (t : ity) (a b : Z) : outcome Z :=
  if (b =? 0) || negb (in_ity t (Z.quot a b)) then Panic else Ret (Z.quot a b).
(** integer `%`; no code of /repo (Rust reference) *)
Definition irem (t : ity) (a b : Z) : outcome Z :=
  if (b =? 0) || negb (in_ity t (Z.quot a b)) then Panic else Ret (Z.rem a b).
(** `abs`; no code of /repo (std) *)
Definition iabs p t a := arith p t (Z.abs a).
(** integer negation; no code of /repo (Rust reference) *)
Definition ineg p t a := arith p t (- a).

(** `Ord::clamp` on integers (asserts min <= max).
    No code of /repo: Rust reference / std. *)
Definition iclamp (x mn mx : Z) : outcome Z :=
  if mx <? mn then Panic
  else Ret (if x <? mn then mn else if mx <? x then mx else x).

(** ** Ranges and loops *)

(** `a..b`
    No code of /repo: Rust reference / std. *)
Definition zrange (a b : Z) : list Z :=
  map (fun k => a + Z.of_nat k) (seq 0 (Z.to_nat (b - a))).

(** `(a..b).step_by(s)` for s > 0
    No code of /repo: Rust reference / std. *)
Definition zrange_step_pos (a b s : Z) : list Z :=
  map (fun k => a + s * Z.of_nat k) (seq 0 (Z.to_nat ((b - a + s - 1) / s))).

(** `step_by(0)` panics.
    No code of /repo: Rust reference / std. *)
Definition zrange_step (a b s : Z) : outcome (list Z) :=
  if s <=? 0 then Panic else Ret (zrange_step_pos a b s).

(** `for x in l { s = f(s, x) }`
    No code of /repo: Rust reference / std. *)
Fixpoint mfold {A S : Type} (f : S -> A -> outcome S) (l : list A) (s : S) : outcome S :=
  match l with
  | [] => Ret s
  | a :: l' => let! s' := f s a in mfold f l' s'
  end.

(** collecting loop: `for x in l { v.push(f(x)) }`
    No code of /repo: Rust reference / std. *)
Fixpoint mmap {A B : Type} (f : A -> outcome B) (l : list A) : outcome (list B) :=
  match l with
  | [] => Ret []
  | a :: l' => let! b := f a in let! bs := mmap f l' in Ret (b :: bs)
  end.

(** ** Vectors and slices *)

(** `len()` of a Vec or slice; no code of /repo (std) *)
Definition len {A} (v : list A) : Z := Z.of_nat (length v).

(** `v[i]`
    No code of /repo: Rust reference / std. *)
Definition vget {A} (v : list A) (i : Z) : outcome A :=
  if (0 <=? i) && (i <? len v)
  then match nth_error v (Z.to_nat i) with Some x => Ret x | None => Panic end
  else Panic.

(** a list with one element replaced: the effect of `v[i] = x`; no code of /repo (std) *)
Fixpoint upd {A} (v : list A) (i : nat) (x : A) : list A :=
  match v, i with
  | [], _ => []
  | _ :: v', O => x :: v'
  | a :: v', S i' => a :: upd v' i' x
  end.

(** `v[i] = x`
    No code of /repo: Rust reference / std. *)
Definition vset {A} (v : list A) (i : Z) (x : A) : outcome (list A) :=
  if (0 <=? i) && (i <? len v) then Ret (upd v (Z.to_nat i) x) else Panic.

(** `&v[a..b]`
    No code of /repo: Rust reference / std. *)
Definition vslice {A} (v : list A) (a b : Z) : outcome (list A) :=
  if (0 <=? a) && (a <=? b) && (b <=? len v)
  then Ret (firstn (Z.to_nat (b - a)) (skipn (Z.to_nat a) v))
  else Panic.

(** `v[a..b].clone_from_slice(src)`: panics when the lengths differ.
    No code of /repo: Rust reference / std. *)
Definition vcopy {A} (v : list A) (a b : Z) (src : list A) : outcome (list A) :=
  if (0 <=? a) && (a <=? b) && (b <=? len v) && (len src =? b - a)
  then Ret (firstn (Z.to_nat a) v ++ src ++ skipn (Z.to_nat b) v)
  else Panic.

(** ** The trait [Number] (src/image/mod.rs:87-125) *)

(** Operators of a channel type.  `0.into()` is [n_of_u8 0].  Integer instances can
    panic, hence [outcome].  Simplification: the assign variants (`+=` etc.) are the
    same operations; Display is not modelled.
    image/mod.rs:87-125. *)
Record number (T : Type) : Type := Number {
  n_of_u8 : Z -> T;
  n_add : profile -> T -> T -> outcome T;
  n_sub : profile -> T -> T -> outcome T;
  n_mul : profile -> T -> T -> outcome T;
  n_div : profile -> T -> T -> outcome T;
  n_rem : profile -> T -> T -> outcome T;
  n_eqb : T -> T -> bool;
  n_ltb : T -> T -> bool
}.
Arguments n_of_u8 {T}. Arguments n_add {T}. Arguments n_sub {T}. Arguments n_mul {T}.
Arguments n_div {T}. Arguments n_rem {T}. Arguments n_eqb {T}. Arguments n_ltb {T}.

(** `T::from(0)`, the zero of a channel type (image/mod.rs:103, From<u8>) *)
Definition n_zero {T} (N : number T) : T := n_of_u8 N 0.

(** the primitive unsigned integers
    image/mod.rs:87-125. *)
Definition num_int (t : ity) : number Z := {|
  n_of_u8 := fun z => z;
  n_add := fun p a b => iadd p t a b;
  n_sub := fun p a b => isub p t a b;
  n_mul := fun p a b => imul p t a b;
  n_div := fun _ a b => idiv t a b;
  n_rem := fun _ a b => irem t a b;
  n_eqb := Z.eqb;
  n_ltb := Z.ltb
|}.
(** u8 as a channel type (image/mod.rs:87-125) *)
Definition num_u8 := num_int U8.
