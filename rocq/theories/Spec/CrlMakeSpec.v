(** What may be asked of CreateCRL, and what a list made from it says. *)
From Coq Require Import List ZArith.
From Verif.Model Require Import Base CertRes Ber GoTime Asn1 Tal Cms Validator X509 CrlMake.
From Verif.Spec Require Import Addr BerSpec IpExtSpec ObjSpec SignedSpec CrlSpec X509Spec.
Import ListNotations.
Open Scope Z_scope.

Definition extension_ok (e : extension) : Prop := object_id (e_id e) /\ Z.of_nat (length (e_value e)) < 2 ^ 31.
(** A name is a SEQUENCE; dates are dates of the calendar; the key identifier
    has at most 125 octets, the number of the list at most 20. *)
Definition order_ok (o : crl_order) : Prop :=
  sequence (or_name o) /\ Z.of_nat (length (or_name o)) < 2 ^ 31 /\ (length (or_ski o) <= 125)%nat /\
  calendar (or_now o) /\ calendar (or_expiry o) /\ or_expiry o <> time0 /\
  Forall (fun r => calendar (snd (fst r)) /\ Forall extension_ok (snd r)) (or_revoked o) /\
  exists n, or_number o = Some n /\ - 2 ^ 159 <= n < 2 ^ 159.

Definition serials (o : crl_order) : list Z := map (fun r => fst (fst r)) (or_revoked o).
Definition crl_number_id : list Z := [2; 5; 29; 20].
(** What the list says is what was asked for: dates, serial numbers in order,
    the key identifier if there is one, the number, and the signature [sig]. *)
Definition made_from (o : crl_order) (x : xcrl) (sig : bytes) : Prop :=
  xl_alg x = (sha256_rsa_id, null_value) /\ xl_this x = or_now o /\ xl_next x = or_expiry o /\
  xl_revoked x = serials o /\ xl_sig x = mkBits sig (8 * Z.of_nat (length sig)) /\
  exists n c v, or_number o = Some n /\ number_coded c n /\ coded 2 c v /\
    xl_exts x = (if (0 <? length (or_ski o))%nat then [mkExt authority_key_id false (key_octets (or_ski o))] else [])
                ++ [mkExt crl_number_id false v].

(** The certificate [p] is read with the key [n], [e], and what the signer makes
    of digests are signatures of that key. *)
Definition signs_for (sha256 : bytes -> bytes) (rsa_sign : bytes -> option bytes) (p : cert) : Prop :=
  exists y n e, x509_read (c_body p) = Some y /\ key_of y = Some (RSAPtr n (Zpos e)) /\
    forall m sig, rsa_sign (sha256 m) = Some sig -> pkcs1_signature n (Zpos e) (sha256 m) sig.

(** The part that is signed is a sequence of seven values, the sixth of which
    is the list of entries; RFC 5280 (5.1.2.6) wants it absent when there are
    none. *)
Definition entries_absent (tbs : bytes) : Prop :=
  ~ exists before after, coded 48 (concat (before ++ [48; 0] :: after)) tbs /\ Forall some_value (before ++ after) /\
      length before = 5%nat.
