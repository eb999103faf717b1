(** C88: revocation lists that the library makes. *)
From Coq Require Import String.
From Verif.Model Require Import Base Str NetIP CertRes Roa Tal Validator X509 CrlMake.
From Verif.Spec Require Import Addr Trust Safe CrlSpec X509Spec CrlMakeSpec.
From Verif.Proofs Require Import Witness ObjWitness HeapProofs ValidatorInv ValidatorFacts ValidatorWitness CrlKey CrlMakeThm X509Witness CrlMakeWitness.

Section Props.
Variable sha256 : bytes -> bytes.
Variable rsa_sign : bytes -> option bytes.
Variable more : bytes -> bool.
Variable other_sig : list Z * bytes -> bytes -> bytes -> bytes -> bool.
Notation create_crl := (create_crl sha256 rsa_sign).

(** The octets are those of a list that says what was asked for, signed. *)
Theorem C88_made : forall o b, order_ok o -> create_crl o = Some b -> Z.of_nat (List.length b) < 2 ^ 31 -> bytes_ok b = true ->
  exists x sig, list_octets b x /\ made_from o x sig /\ rsa_sign (sha256 (xl_tbs x)) = Some sig.
Proof. exact (list_made sha256 rsa_sign more other_sig). Qed.

(** The library reads it back, and the key identifier names the issuer; without
    one the list names nobody. *)
Theorem C88_named : forall o b, order_ok o -> create_crl o = Some b -> Z.of_nat (List.length b) < 2 ^ 31 -> more b = false ->
  exists l, x509_crl more b = Some l /\ crl_body l = b /\ crl_serials l = serials o /\
    (or_ski o <> [] -> names_issuer l (or_ski o)) /\ (or_ski o = [] -> forall k, ~ names_issuer l k).
Proof. exact (list_named sha256 rsa_sign more other_sig). Qed.

Variable sig_ok : cert -> cert -> bool.
Variable dec_tal : bytes -> option tal.
Variable dec_cert : bytes -> option cert.
Variable dec_roa : bytes -> option roa.
Variable dec_mft : bytes -> option mft.
Variable hex_sha1 : bytes -> bytes.
Notation crl_signed := (x509_crl_signed sha256 other_sig).
Notation run := (run sig_ok crl_signed dec_tal dec_cert dec_roa dec_mft (x509_crl more) hex_sha1).

(** A validator in which the issuer is valid accepts it if the signer's key is
    the issuer's. *)
Theorem C88_accepted : forall ops now v o b l v1 valid a ic, run ops (new_validator now) = VRet v ->
  order_ok o -> create_crl o = Some b -> Z.of_nat (List.length b) < 2 ^ 31 -> (forall m, bytes_ok (sha256 m) = true) ->
  x509_crl more b = Some l -> known_cert v ic -> c_ski ic = or_ski o -> or_ski o <> [] -> v_valid v (or_ski o) <> None ->
  signs_for sha256 rsa_sign ic -> add_crl crl_signed l v = VRet (v1, (valid, a)) -> valid = true.
Proof. exact (list_accepted sha256 rsa_sign more other_sig sig_ok dec_tal dec_cert dec_roa dec_mft hex_sha1). Qed.

(** What it lists is not valid from then on. *)
Theorem C88_revokes : forall ops now v o b l v1 valid a ic ops2 v2 c, run ops (new_validator now) = VRet v ->
  order_ok o -> create_crl o = Some b -> Z.of_nat (List.length b) < 2 ^ 31 -> (forall m, bytes_ok (sha256 m) = true) ->
  x509_crl more b = Some l -> known_cert v ic -> c_ski ic = or_ski o -> or_ski o <> [] -> v_valid v (or_ski o) <> None ->
  signs_for sha256 rsa_sign ic -> add_crl crl_signed l v = VRet (v1, (valid, a)) -> run ops2 v1 = VRet v2 ->
  c_aki c = or_ski o -> In (c_serial c) (serials o) -> ~ given_as_anchor dec_cert ops2 c -> ~ valid_cert v1 c -> ~ valid_cert v2 c.
Proof. exact (list_revokes sha256 rsa_sign more other_sig sig_ok dec_tal dec_cert dec_roa dec_mft hex_sha1). Qed.
End Props.
Print Assumptions C88_made.
Print Assumptions C88_named.
Print Assumptions C88_accepted.
Print Assumptions C88_revokes.

(** Two entries, signed with the key of a certificate that is read. *)
Example C88_example : order_ok m_two /\ create_crl sha0 m_sign m_two = Some (m_list m_two) /\
  Z.of_nat (List.length (m_list m_two)) < 2 ^ 31 /\ bytes_ok (m_list m_two) = true /\
  (forall m, bytes_ok (sha0 m) = true) /\ signs_for sha0 m_sign (w_read w_root) /\
  serials m_two = [3; 9] /\ or_ski m_two = str "R".
Proof.
  split; [exact m_two_ok|]. destruct m_made as (A & B & C). repeat (split; [assumption|]).
  split; [reflexivity|]. split; [exact m_signs|]. split; reflexivity.
Qed.

(** A list without entries has an empty sequence where RFC 5280 wants none. *)
Theorem C88_empty_refuted : ~ (forall o b x, order_ok o -> create_crl sha0 m_sign o = Some b -> list_octets b x ->
  xl_revoked x = [] -> entries_absent (xl_tbs x)).
Proof. exact empty_refuted. Qed.
Print Assumptions C88_empty_refuted.
