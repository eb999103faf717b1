(** Keys of RSA (RFC 8017, sections 3 and 9.2). *)
From Coq Require Import List ZArith Znumtheory.
From Verif.Model Require Import Base RsaPriv.
From Verif.Spec Require Import Addr CmsSpec.
Import ListNotations.
Open Scope Z_scope.

Definition product (l : list Z) : Z := fold_right Z.mul 1 l.

(** The modulus is the product of different odd primes, and the exponents are
    inverse to each other modulo each prime less one. *)
Definition rsa_key (k : privkey) : Prop :=
  pk_n k = product (pk_primes k) /\ NoDup (pk_primes k) /\ pk_primes k <> [] /\ 0 < pk_d k /\
  Forall (fun p => prime p /\ 2 < p /\ (p - 1 | Zpos (pk_e k) * pk_d k - 1)) (pk_primes k).

(** The values for the third prime on: the exponent, and the inverse of the
    product [r] of the primes before. *)
Fixpoint further_values (d r : Z) (vs : list crt_value) (primes : list Z) : Prop :=
  match vs, primes with
  | [], [] => True
  | v :: vs', p :: primes' =>
      cv_exp v = d mod (p - 1) /\ cv_r v = r /\ cv_coeff v * r mod p = 1 /\ further_values d (r * p) vs' primes'
  | _, _ => False
  end.
(** What is computed beforehand, if anything. *)
Definition prepared (k : privkey) : Prop :=
  match pk_pre k with
  | None => True
  | Some pc =>
      exists p q more, pk_primes k = p :: q :: more /\ pc_dp pc = pk_d k mod (p - 1) /\ pc_dq pc = pk_d k mod (q - 1) /\
        pc_qinv pc * q mod p = 1 /\ further_values (pk_d k) (p * q) (pc_crt pc) more
  end.

(** A block of type 1 around the data (RFC 8017, 9.2, step 5). *)
Definition block_type_1 (k : Z) (data em : bytes) : Prop :=
  exists ps, em = [0; 1] ++ ps ++ [0] ++ data /\ Forall (fun x => x = 255) ps /\ (8 <= length ps)%nat /\ Z.of_nat (length em) = k.

(** The data fits: eleven octets are left. *)
Definition fits_key (n : Z) (data : bytes) : Prop := Z.of_nat (length data) + 11 <= octets_of n.

(** Signing with the key, each time with some invertible random number. *)
Definition signer_of (k : privkey) (info : bytes) (rsa_sign : bytes -> option bytes) : Prop :=
  forall data, exists r ir, r * ir mod pk_n k = 1 /\ sign_pkcs1v15 r ir k (info ++ data) = Ret (rsa_sign data).
