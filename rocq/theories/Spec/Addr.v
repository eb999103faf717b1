(** Specification vocabulary for addresses, independent of the model:
    an address of [n] bytes is the big-endian number of its bytes, a prefix of
    length [p] in a space of [w] bits is the interval of the numbers which
    agree with it on the leading [p] bits. *)
From Coq Require Import List ZArith.
Import ListNotations.
Open Scope Z_scope.

Definition addr_val (l : list Z) : Z := fold_left (fun acc b => acc * 256 + b) l 0.
Definition addr_bits (l : list Z) : Z := 8 * Z.of_nat (length l).

Definition first_addr (w p v : Z) : Z := v - v mod 2 ^ (w - p).
Definition last_addr (w p v : Z) : Z := first_addr w p v + 2 ^ (w - p) - 1.

(** An IPv6 address of the form ::ffff:a.b.c.d, as a number. *)
Definition v4mapped (v : Z) : Prop := 65535 * 2 ^ 32 <= v < 65536 * 2 ^ 32.
