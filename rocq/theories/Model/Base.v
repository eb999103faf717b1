(** Common vocabulary of the model: bytes, results with panics. *)
From Coq Require Export List ZArith Bool.
Export ListNotations.
Open Scope Z_scope.

(** A Go [byte] is a [Z]; well-formedness is [0 <= b < 256] and is stated
    where it matters ([bytes_ok]).  A Go [[]byte] is a [list Z]; the nil slice
    and the empty slice are both [[]] (Go code in /repo never distinguishes
    them except through [len] or an explicit nil test, which is then modelled
    separately). *)
Definition bytes := list Z.

Definition byte_ok (b : Z) : bool := (0 <=? b) && (b <? 256).
Definition bytes_ok (l : bytes) : bool := forallb byte_ok l.

(** Outcome of a Go call that may panic (nil dereference, index out of
    range, failed type assertion, explicit [panic]). *)
Inductive go (A : Type) : Type :=
| Ret (a : A)
| Panic.
Arguments Ret {A} a.
Arguments Panic {A}.

Definition gbind {A B} (x : go A) (f : A -> go B) : go B :=
  match x with Ret a => f a | Panic => Panic end.

Notation "'let!' x ':=' e 'in' k" := (gbind e (fun x => k))
  (at level 200, x pattern, e at level 100, k at level 200, right associativity).

(** Go [int] and [int64] are 64-bit two's complement. *)
Definition wrap64 (x : Z) : Z := (x + 2 ^ 63) mod 2 ^ 64 - 2 ^ 63.

(** Slice indexing [s[i]] with its bounds check. *)
Definition idx {A} (l : list A) (i : nat) : go A :=
  match nth_error l i with Some a => Ret a | None => Panic end.
