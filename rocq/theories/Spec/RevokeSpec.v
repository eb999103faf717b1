(** Vocabulary for revocation lists found by exploration. *)
From Coq Require Import List ZArith.
From Verif.Model Require Import Base Str Validator Explore.
From Verif.Spec Require Import Trust Discovery CrlSpec.
Import ListNotations.
Open Scope Z_scope.

Section Revoked.
Variable disk : bytes -> option bytes.
Variable sha256 : bytes -> bytes.
Variable dec_cert : bytes -> option cert.
Variable dec_crl : bytes -> option crl.
Variable crl_sig_ok : cert -> crl -> bool.

(** The certificate is that of a file among [P] taken as a trust anchor. *)
Definition anchor_file (P : list pkifile) (c : cert) : Prop :=
  exists f, In f P /\ f_type f = TCer /\ fd_trust (f_desc f) = true /\ contents disk dec_cert f c.

(** The holder of the key [k] publishes the list file [f]: a manifest of a
    certificate with this key lists it, or a valid certificate issued under the
    key names it. *)
Definition publishes (P : list pkifile) (v : validator) (k : bytes) (f : pkifile) : Prop :=
  (exists p g c, listed f p g /\ contents disk dec_cert g c /\ c_ski c = k) \/
  (exists g c, f_parent f = Some g /\ f_type g = TCer /\ contents disk dec_cert g c /\ valid_cert v c /\
     ~ anchor_file P c /\ c_aki c = k).

(** A list among the explored files, published by the issuer of [c], present
    with the right digest and signed with the key of the valid certificate of the
    issuer, has the serial number of [c]. *)
Definition revoked (P : list pkifile) (v : validator) (c : cert) : Prop :=
  exists f l ca, In f P /\ f_type f = TCrl /\ good_copy disk sha256 f /\ contents disk dec_crl f l /\
    publishes P v (c_aki c) f /\
    valid_cert v ca /\ c_ski ca = c_aki c /\ names_issuer l (c_aki c) /\ crl_sig_ok ca l = true /\
    In (c_serial c) (crl_serials l).
End Revoked.

(** No two known certificates share the authority key identifier followed by
    the serial number in decimal, unless serial number and key are the same. *)
Definition serials_apart (v : validator) : Prop :=
  forall c1 c2, known_cert v c1 -> known_cert v c2 ->
    c_aki c1 ++ dec (c_serial c1) = c_aki c2 ++ dec (c_serial c2) ->
    c_serial c1 = c_serial c2 /\ c_ski c1 = c_ski c2.

(** A chain as in [chain_to] whose certificates below the anchor do not satisfy [bad]. *)
Inductive clean_chain (sig_ok : cert -> cert -> bool) (anchor bad : cert -> Prop) (v : validator) : cert -> Prop :=
| cc_anchor c : valid_cert v c -> in_window c (v_time v) -> anchor c -> clean_chain sig_ok anchor bad v c
| cc_link c p : valid_cert v c -> in_window c (v_time v) -> c_aki c = c_ski p -> sig_ok p c = true -> ~ bad c ->
    clean_chain sig_ok anchor bad v p -> clean_chain sig_ok anchor bad v c.
