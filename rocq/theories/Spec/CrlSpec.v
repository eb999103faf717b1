(** The issuer that a CRL names: the octets of its AuthorityKeyIdentifier
    extension, without any definition of the validator's. *)
From Coq Require Import List ZArith.
From Verif.Model Require Import Base Validator.
Import ListNotations.
Open Scope Z_scope.

(** SEQUENCE { [0] key identifier }, with lengths of one octet *)
Definition key_octets (k : bytes) : bytes :=
  [48; Z.of_nat (length k) + 2; 128; Z.of_nat (length k)] ++ k.

(** The CRL has one AuthorityKeyIdentifier extension, holding [k]. *)
Definition names_issuer (l : crl) (k : bytes) : Prop :=
  exists before after, crl_exts l = before ++ (true, key_octets k) :: after /\
    (forall e, In e (before ++ after) -> fst e = false) /\ (1 <= length k <= 125)%nat.
