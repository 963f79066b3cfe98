(** Shared vocabulary of the model: outcomes of C++ calls, [std::size_t]
    arithmetic and element access.  Nothing here is specific to one file of
    /repo; it fixes how the C++ abstract machine is represented. *)
From Coq Require Import List ZArith Lia Bool.
Import ListNotations.
Open Scope Z_scope.

(** Exception classes thrown in /repo (std::exception subclasses). *)
Inductive exn :=
| invalid_argument | domain_error | out_of_range | range_error
| runtime_error | logic_error | bad_alloc.

(** Kinds of undefined behaviour that the model can exhibit. *)
Inductive ubkind :=
| ub_conversion   (* floating point value not representable in integer type *)
| ub_access       (* element access outside a sequence *)
| ub_optional     (* dereference of an empty std::optional *)
| ub_null         (* dereference of a null pointer *)
| ub_overflow     (* signed integer overflow *)
| ub_assert.      (* an assert() in the code does not hold *)

(** Result of running a piece of C++ code. *)
Inductive outcome (A : Type) :=
| Ok (a : A)
| Throw (e : exn)
| UB (u : ubkind).
Arguments Ok {A} a.
Arguments Throw {A} e.
Arguments UB {A} u.

Definition bind {A B} (x : outcome A) (f : A -> outcome B) : outcome B :=
  match x with
  | Ok a => f a
  | Throw e => Throw e
  | UB u => UB u
  end.

(** [std::size_t] on the 64-bit targets of MaRC: arithmetic modulo 2^64. *)
Definition size_mod : Z := 2 ^ 64.
Definition wrap (z : Z) : Z := z mod size_mod.
Definition is_size (z : Z) : Prop := 0 <= z < size_mod.

(** Overwrite element [n]; out of range indices leave the list alone (every
    caller checks the range first and reports [ub_access] otherwise). *)
Fixpoint upd {A} (l : list A) (n : nat) (a : A) : list A :=
  match l, n with
  | [], _ => []
  | _ :: t, O => a :: t
  | h :: t, S m => h :: upd t m a
  end.
