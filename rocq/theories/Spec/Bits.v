(** Specification vocabulary for ASN.1 BIT STRINGs holding address prefixes:
    the number formed by the significant bits, first bit most significant. *)
From Coq Require Import List ZArith.
From Verif.Model Require Import Base CertRes.
From Verif.Spec Require Import Addr.
Open Scope Z_scope.

(** What asn1.Unmarshal guarantees of a BIT STRING: the minimal number of
    bytes, padding bits zero. *)
Definition wf_bits (b : bitstring) : Prop :=
  bytes_ok (bs_bytes b) = true /\ 0 <= bs_len b /\
  bs_len b <= 8 * Z.of_nat (length (bs_bytes b)) < bs_len b + 8 /\
  addr_val (bs_bytes b) mod 2 ^ (8 * Z.of_nat (length (bs_bytes b)) - bs_len b) = 0.

(** The significant bits as a number. *)
Definition bits_val (b : bitstring) : Z :=
  addr_val (bs_bytes b) / 2 ^ (8 * Z.of_nat (length (bs_bytes b)) - bs_len b).

(** Address family octets: 1 is IPv4 (4 bytes), 2 is IPv6 (16 bytes). *)
Definition fam_octets (fam : bytes) (n : nat) : Prop :=
  (n = 4%nat /\ exists a r, fam = (a :: 1 :: r)%list) \/
  (n = 16%nat /\ exists a r, fam = (a :: 2 :: r)%list).
