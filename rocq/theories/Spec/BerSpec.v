(** Specification of BER and DER encodings of ASN.1 values (X.690), restricted
    to the length forms the converter accepts. *)
From Coq Require Import List ZArith.
From Verif.Model Require Import Base.
From Verif.Spec Require Import Addr.
Import ListNotations.
Open Scope Z_scope.

(** A value: identifier octets and contents. *)
Inductive tree :=
| Prim (tag : bytes) (content : bytes)
| Cons (tag : bytes) (content : list tree).

(** Identifier octets: one octet with a tag number below 31, or 31 followed
    by octets with the high bit set and a last one without. *)
Inductive tag_octets (constructed : bool) : bytes -> Prop :=
| tag_low b : 0 <= b < 256 -> b mod 32 <> 31 -> (b / 32) mod 2 = (if constructed then 1 else 0) ->
    tag_octets constructed [b]
| tag_high b mid last : 0 <= b < 256 -> b mod 32 = 31 -> (b / 32) mod 2 = (if constructed then 1 else 0) ->
    Forall (fun x => 128 <= x < 256) mid -> 0 <= last < 128 ->
    tag_octets constructed (b :: mid ++ [last]).

(** Definite length octets: short form, or long form without leading zero;
    [k] is the number of octets of the long form. *)
Inductive len_octets : Z -> bytes -> Prop :=
| len_short n : 0 <= n < 128 -> len_octets n [n]
| len_long k ds n : length ds = k -> (1 <= k < 127)%nat -> bytes_ok ds = true -> hd 0 ds <> 0 ->
    addr_val ds = n -> len_octets n (128 + Z.of_nat k :: ds).

(** DER: the shortest length octets. *)
Definition der_len (n : Z) (l : bytes) : Prop :=
  len_octets n l /\ (n < 128 <-> length l = 1%nat).

(** [der t b]: [b] is the DER encoding of [t]. *)
Inductive der : tree -> bytes -> Prop :=
| der_prim tag c l : tag_octets false tag -> bytes_ok c = true ->
    der_len (Z.of_nat (length c)) l -> der (Prim tag c) (tag ++ l ++ c)
| der_cons tag ts bs l : tag_octets true tag -> ders ts bs ->
    der_len (Z.of_nat (length bs)) l -> der (Cons tag ts) (tag ++ l ++ bs)
with ders : list tree -> bytes -> Prop :=
| ders_nil : ders [] []
| ders_cons t ts b bs : der t b -> ders ts bs -> ders (t :: ts) (b ++ bs).

(** [ber t b]: [b] is a BER encoding of [t] whose lengths are at most four
    octets and below 2^31, and whose indefinite-length values are not empty.
    In the indefinite form no component starts with two zero octets. *)
Inductive ber : tree -> bytes -> Prop :=
| ber_prim tag c l : tag_octets false tag -> bytes_ok c = true ->
    Z.of_nat (length c) < 2 ^ 31 ->
    len_octets (Z.of_nat (length c)) l -> ber (Prim tag c) (tag ++ l ++ c)
| ber_def tag ts bs l : tag_octets true tag -> bers false ts bs ->
    Z.of_nat (length bs) < 2 ^ 31 ->
    len_octets (Z.of_nat (length bs)) l -> ber (Cons tag ts) (tag ++ l ++ bs)
| ber_indef tag ts bs : tag_octets true tag -> bers true ts bs -> ts <> [] ->
    ber (Cons tag ts) (tag ++ 128 :: bs ++ [0; 0])
with bers : bool -> list tree -> bytes -> Prop :=
| bers_nil i : bers i [] []
| bers_cons i t ts b bs : ber t b -> bers i ts bs ->
    (i = true -> firstn 2 b <> [0; 0]) -> bers i (t :: ts) (b ++ bs).

Scheme der_ind2 := Minimality for der Sort Prop
  with ders_ind2 := Minimality for ders Sort Prop.
Combined Scheme der_ders_ind from der_ind2, ders_ind2.
Scheme ber_ind2 := Minimality for ber Sort Prop
  with bers_ind2 := Minimality for bers Sort Prop.
Combined Scheme ber_bers_ind from ber_ind2, bers_ind2.
