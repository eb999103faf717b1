(** C04, C05 in terms of the issuer that a CRL names by the octets of its
    authority key identifier. *)
From Coq Require Import Lia String.
From Verif.Model Require Import Base NetIP CertRes Roa Str Tal Validator ObjDer.
From Verif.Spec Require Import Addr Resources Trust Safe CrlSpec.
From Verif.Proofs Require Import Witness HeapProofs ValidatorInv ValidatorFacts ValidatorWitness CrlKey.

Section Props.
Variable sig_ok : cert -> cert -> bool.
Variable crl_sig_ok : cert -> crl -> bool.
Variable dec_tal : bytes -> option tal.
Variable dec_cert : bytes -> option cert.
Variable dec_roa : bytes -> option roa.
Variable dec_mft : bytes -> option mft.
Variable dec_crl : bytes -> option crl.
Variable hex_sha1 : bytes -> bytes.

Notation add_crl := (add_crl crl_sig_ok).
Notation run := (run sig_ok crl_sig_ok dec_tal dec_cert dec_roa dec_mft dec_crl hex_sha1).
Notation anchor := (given_as_anchor dec_cert).

(** C04. A certificate that an accepted CRL of its issuer lists and that is not
    valid when the CRL has been processed is never valid later. *)
Theorem C04_listed_before_arrival : forall ops now v l v1 a ops2 v2 c,
  run ops (new_validator now) = VRet v -> add_crl l v = VRet (v1, (true, a)) -> run ops2 v1 = VRet v2 ->
  names_issuer l (c_aki c) -> In (c_serial c) (crl_serials l) ->
  ~ anchor ops2 c -> ~ valid_cert v1 c -> ~ valid_cert v2 c.
Proof.
  intros ops now v l v1 a ops2 v2 c R A R2 N. apply names_issuer_read in N. symmetry in N. revert N.
  exact (revoked_not_valid_later sig_ok crl_sig_ok dec_tal dec_cert dec_roa dec_mft dec_crl hex_sha1 _ _ _ _ _ _ _ _ c R A R2).
Qed.

(** One that is there already is invalidated, when key identifiers have one
    length and serial numbers are unique per issuer. *)
Theorem C04_listed_after_arrival_partial : forall ops now v l v1 a c,
  run ops (new_validator now) = VRet v -> add_crl l v = VRet (v1, (true, a)) ->
  names_issuer l (c_aki c) -> In (c_serial c) (crl_serials l) -> ~ anchor ops c ->
  same_length_ids v (c_aki c) -> serials_unique v ->
  ~ valid_cert v1 c.
Proof.
  intros ops now v l v1 a c R A N S AN SL SU. pose proof (names_issuer_read _ _ N) as E.
  eapply (crl_removes sig_ok crl_sig_ok dec_tal dec_cert dec_roa dec_mft dec_crl hex_sha1); eauto. now rewrite E.
Qed.

(** C05. What an accepted CRL invalidates is below a certificate, with a listed
    serial number, of the issuer that the CRL names; and that issuer is valid
    and its key signed the CRL. *)
Theorem C05_invalidates_only_own : forall ops now v l v1 a k, run ops (new_validator now) = VRet v ->
  add_crl l v = VRet (v1, (true, a)) -> names_issuer l k ->
  (exists ic, known_cert v ic /\ c_ski ic = k /\ v_valid v k <> None /\ crl_sig_ok ic l = true) /\
  forall k', v_valid v k' <> None -> v_valid v1 k' = None ->
  exists c, known_cert v c /\ In (c_serial c) (crl_serials l) /\ c_aki c = k /\ issuers v k' (c_ski c).
Proof.
  intros ops now v l v1 a k R A N. apply names_issuer_read in N. split.
  - rewrite <- N. exact (crl_accepted_signed sig_ok crl_sig_ok dec_tal dec_cert dec_roa dec_mft dec_crl hex_sha1 _ _ _ _ _ _ R A).
  - rewrite <- N. exact (crl_only_own sig_ok crl_sig_ok dec_tal dec_cert dec_roa dec_mft dec_crl hex_sha1 _ _ _ _ _ _ R A).
Qed.

(** A certificate of another issuer, with a key identifier of the same length,
    is not marked as revoked. *)
Theorem C05_other_issuers_untouched_partial : forall l v v1 a c k, add_crl l v = VRet (v1, (true, a)) ->
  names_issuer l k -> length (c_aki c) = length k -> c_aki c <> k ->
  kin (v_revoked v1) (serial_key (c_aki c) (c_serial c)) = kin (v_revoked v) (serial_key (c_aki c) (c_serial c)).
Proof.
  intros l v v1 a c k A N. apply names_issuer_read in N. rewrite <- N.
  exact (crl_other_not_marked crl_sig_ok l v v1 a c A).
Qed.
End Props.
Print Assumptions C04_listed_before_arrival.
Print Assumptions C04_listed_after_arrival_partial.
Print Assumptions C05_invalidates_only_own.
Print Assumptions C05_other_issuers_untouched_partial.

(** CRLs written by the library name the key they were made for. *)
Theorem C05_created_crl_names_key : forall k exts1 exts2 b serials body, encode_crl_key k = Some b ->
  (1 <= length k <= 125)%nat -> (forall e, In e (exts1 ++ exts2) -> fst e = false) ->
  names_issuer (mkCrl (exts1 ++ (true, b) :: exts2) serials body) k.
Proof. exact created_names. Qed.
Print Assumptions C05_created_crl_names_key.

(** A longer key, or an authority key identifier with further fields, is
    attributed to another key. *)
Theorem C05_longer_key_refuted : exists k b, encode_crl_key k = Some b /\ crl_aki [(true, b)] [] <> k.
Proof.
  exists (repeat 1 126%nat). eexists. split; [vm_compute; reflexivity|]. vm_compute. discriminate.
Qed.
Print Assumptions C05_longer_key_refuted.

Theorem C05_further_fields_refuted : forall k rest, k <> [] -> rest <> [] ->
  forall v, crl_aki [(true, [48; v; 128; Z.of_nat (length k)] ++ k ++ rest)] [] <> k.
Proof.
  intros k rest K R v. rewrite key_with_more; [|reflexivity|destruct k; [congruence|cbn; lia]].
  intros E. apply (f_equal (@length Z)) in E. rewrite app_length in E. destruct rest; [congruence|cbn in E; lia].
Qed.
Print Assumptions C05_further_fields_refuted.

(** Non-vacuity: a CRL of A listing serial 9. *)
Example C05_named_example : names_issuer (mkCrl [(false, [1; 2]); (true, key_octets (str "A"))] [9] []) (str "A").
Proof.
  exists [(false, [1; 2])], []. split; [reflexivity|]. split; [|cbn; lia].
  intros e [<-|[]]. reflexivity.
Qed.
