(** C93: the private operation of RSA. *)
From Coq Require Import Lia ZArith Znumtheory List.
From Verif.Model Require Import Base Str NetIP CertRes Roa Ber Asn1 GoTime Der Tal Cms Validator ObjDer X509 CrlMake RsaPriv.
From Verif.Spec Require Import Addr Resources Bits Canon BerSpec CmsSpec ObjSpec X509Spec CrlMakeSpec RsaSpec.
From Verif.Proofs Require Import ObjEncode ObjRound ObjTop Fermat RsaProofs RsaThm.
Import ListNotations.
Open Scope Z_scope.

(** The exponents undo each other, in both orders. *)
Theorem C93_inverse : forall k m, rsa_key k -> 0 <= m < pk_n k ->
  (m ^ pk_d k mod pk_n k) ^ Zpos (pk_e k) mod pk_n k = m /\ (m ^ Zpos (pk_e k) mod pk_n k) ^ pk_d k mod pk_n k = m.
Proof. exact (fun k m K M => conj (rsa_inverse k m K M) (rsa_inverse_back k m K M)). Qed.
Print Assumptions C93_inverse.

(** With the values for the Chinese remainder theorem, for any number of
    primes, the result is that of the plain exponentiation. *)
Theorem C93_same_power : forall k c, rsa_key k -> prepared k -> private_op k c = Ret (c ^ pk_d k mod pk_n k).
Proof. exact private_op_spec. Qed.
Print Assumptions C93_same_power.

(** RSAPublicDecrypt gives back what PrivateEncrypt was given; data that is
    too long is refused. *)
Theorem C93_decrypts : forall k data, rsa_key k -> prepared k -> bytes_ok data = true -> fits_key (pk_n k) data ->
  exists sig, private_encrypt k data = Ret (Some sig) /\ rsa_public_decrypt (pk_n k) (pk_e k) sig = data.
Proof. exact decrypt_encrypted. Qed.
Print Assumptions C93_decrypts.
Theorem C93_too_long : forall k data, 0 < pk_n k -> ~ fits_key (pk_n k) data -> private_encrypt k data = Ret None.
Proof. exact encrypt_refuses. Qed.
Print Assumptions C93_too_long.

(** The library's signatures do not depend on the random number; *)
Theorem C93_blinding : forall r ir k data, rsa_key k -> prepared k -> r * ir mod pk_n k = 1 -> bytes_ok data = true ->
  fits_key (pk_n k) data ->
  exists em, block_type_1 (octets_of (pk_n k)) data em /\
    sign_pkcs1v15 r ir k data = Ret (Some (be_bytes (Z.to_nat (octets_of (pk_n k))) (addr_val em ^ pk_d k mod pk_n k))).
Proof. exact sign_complete. Qed.
Print Assumptions C93_blinding.
(** and what it returns is a signature of the data, even with a bad key. *)
Theorem C93_sound : forall r ir k data sig, 0 < pk_n k -> bytes_ok data = true -> sign_pkcs1v15 r ir k data = Ret (Some sig) ->
  exists em, block_type_1 (octets_of (pk_n k)) data em /\ Z.of_nat (length sig) = octets_of (pk_n k) /\
    addr_val sig ^ Zpos (pk_e k) mod pk_n k = addr_val em.
Proof. exact sign_sound. Qed.
Print Assumptions C93_sound.

(** Every good key of 62 octets is a key pair as C66 asks for; *)
Theorem C93_key_pair : forall k rsa_sign, rsa_key k -> prepared k -> 62 <= octets_of (pk_n k) -> signer_of k [] rsa_sign ->
  key_pair rsa_sign (pk_n k) (Zpos (pk_e k)).
Proof. exact good_key_pair. Qed.
Print Assumptions C93_key_pair.
(** so a ROA signed with it is accepted; *)
Theorem C93_roa_accepted : forall sha256 k rsa_sign x509_parse certificate ski time ee,
  rsa_key k -> prepared k -> 62 <= octets_of (pk_n k) -> signer_of k [] rsa_sign ->
  hash32 sha256 -> sequence certificate -> Z.of_nat (length certificate) < 2 ^ 31 -> ski <> [] -> calendar time ->
  decode_certificate x509_parse certificate = Some ee -> c_key ee = RSAPtr (pk_n k) (Zpos (pk_e k)) ->
  Forall (fun i => i <> INet None) (c_ips ee) ->
  forall asn l, entries_ok l -> int64 asn ->
  exists blocks content d,
    encode_roa_entries l = Ret blocks /\ marshal t_roa_content (v_roa_content asn blocks) = Some content /\
    signed_as sha256 rsa_sign certificate ski time oid_roa content d /\
    (Z.of_nat (length d) < 2 ^ 31 -> forall rest,
      exists split, validate_roa_list (by_family l) (c_ips ee) = Ret split /\
        decode_roa sha256 x509_parse false (d ++ rest) = Ret (Some (mkRoa ee asn (by_family l) true, split))).
Proof. exact roa_signed_with. Qed.
Print Assumptions C93_roa_accepted.
(** and it signs lists as C88 asks for, if the certificate has its public key. *)
Theorem C93_list_signer : forall sha256 k rsa_sign c y, (forall m, bytes_ok (sha256 m) = true) -> 0 < pk_n k ->
  signer_of k sha256_info rsa_sign -> x509_read (c_body c) = Some y -> key_of y = Some (RSAPtr (pk_n k) (Zpos (pk_e k))) ->
  signs_for sha256 rsa_sign c.
Proof. exact list_signer. Qed.
Print Assumptions C93_list_signer.

(** A key of 31 primes with the values computed beforehand, and a signer. *)
Example C93_example : rsa_key k_key /\ prepared k_key /\ pk_pre k_key <> None /\ length (pk_primes k_key) = 31%nat /\
  octets_of (pk_n k_key) = 62 /\ (forall info, signer_of k_key info (k_sign info)) /\
  fits_key (pk_n k_key) (sha256_info ++ k_digest).
Proof.
  destruct k_good as (A & B & C & _). split; [exact A|]. split; [exact B|]. split; [exact C|]. split; [reflexivity|].
  split; [exact k_size|]. split; [exact k_signer|]. unfold fits_key. rewrite k_size. vm_compute. discriminate.
Qed.

(** PrivateEncrypt drops leading zero octets: its result need not be a
    signature by RFC 8017, which has as many octets as the modulus. *)
Theorem C93_length_refuted : ~ (forall k h sig, rsa_key k -> prepared k -> length h = 32%nat -> bytes_ok h = true ->
  private_encrypt k (sha256_info ++ h) = Ret (Some sig) -> pkcs1_signature (pk_n k) (Zpos (pk_e k)) h sig).
Proof. exact short_refuted. Qed.
Print Assumptions C93_length_refuted.
