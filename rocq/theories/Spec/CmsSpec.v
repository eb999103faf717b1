(** Specification vocabulary for signed objects. *)
From Coq Require Import List ZArith.
From Verif.Model Require Import Base.
From Verif.Spec Require Import Addr BerSpec.
Import ListNotations.
Open Scope Z_scope.

(** [fragment c b]: [b] is the DER encoding of an OCTET STRING with contents
    [c], shorter than 2^31 octets. *)
Definition fragment (c b : bytes) : Prop := der (Prim [4] c) b /\ Z.of_nat (length c) < 2 ^ 31.

(** The DigestInfo of a SHA-256 digest (RFC 8017, section 9.2, note 1). *)
Definition digest_info (h : bytes) : bytes :=
  [48; 49; 48; 13; 6; 9; 96; 134; 72; 1; 101; 3; 4; 2; 1; 5; 0; 4; 32] ++ h.

(** EMSA-PKCS1-v1_5 (RFC 8017, section 9.2): a block of [k] octets. *)
Definition pkcs1_block (k : Z) (h em : bytes) : Prop :=
  exists n, em = 0 :: 1 :: repeat 255 n ++ 0 :: digest_info h /\
            (8 <= n)%nat /\ length h = 32%nat /\ bytes_ok h = true /\ Z.of_nat (length em) = k.

(** The number of octets of a modulus. *)
Definition octets_of (n : Z) : Z := Z.log2 n / 8 + 1.

(** RSASSA-PKCS1-v1_5 verification of the digest [h] (RFC 8017, 8.2.2). *)
Definition rsa_signs (n e : Z) (sig h : bytes) : Prop :=
  exists em, pkcs1_block (octets_of n) h em /\ addr_val sig ^ e mod n = addr_val em.

(** The digest an attribute list carries: the single value of an attribute of
    type message-digest (1.2.840.113549.1.9.4); the last such attribute
    counts.  An attribute is given by its type and its values (encoding,
    contents). *)
Definition digest_oid : bytes := [42; 134; 72; 134; 247; 13; 1; 9; 4].
Definition carries {A} (type : A -> bytes) (values : A -> list (bytes * bytes)) (a : A) (v : bytes) : Prop :=
  type a = digest_oid /\ exists f, values a = [(f, v)].
Definition digest_of {A} (type : A -> bytes) (values : A -> list (bytes * bytes)) (l : list A) (v : bytes) : Prop :=
  exists pre a post, l = pre ++ a :: post /\ carries type values a v /\
    forall b w, In b post -> ~ carries type values b w.
