(** C64-C67: certificates' extensions and signed objects as octets. *)
From Coq Require Import Lia Bool.
From Verif.Model Require Import Base Str NetIP CertRes Roa Ber Asn1 GoTime Der Tal Cms Validator ObjDer.
From Verif.Spec Require Import Addr Resources Bits Canon BerSpec CmsSpec ObjSpec.
From Verif.Proofs Require Import ObjEncode ObjRound ObjTop ObjWitness ValidatorPanic.

(** C64. What the library writes, it reads back: IP resources (in the order
    IPv4, IPv6), *)
Theorem C64_ip_resources : forall l, all_canonical l ->
  exists b, encode_ip_ext l = Ret (Some b) /\
    (Z.of_nat (length b) < 2 ^ 31 -> forall rest,
       decode_ip_ext (b ++ rest) = (family_part 4 l ++ family_part 16 l, true)).
Proof. exact ip_ext_octets. Qed.
Print Assumptions C64_ip_resources.

(** AS resources, *)
Theorem C64_as_resources : forall nums rdi, as_list nums -> as_list rdi ->
  exists b, encode_as_ext nums rdi = Some b /\
    (Z.of_nat (length b) < 2 ^ 31 -> forall rest, decode_as_ext (b ++ rest) = (nums, rdi, true)).
Proof. exact as_list_ext. Qed.
Print Assumptions C64_as_resources.

(** access locations, *)
Theorem C64_access_locations : forall l, Forall (fun s => object_id (fst s)) l ->
  exists b, encode_sia l = Some b /\ (Z.of_nat (length b) < 2 ^ 31 -> forall rest, decode_sia (b ++ rest) = Some l).
Proof. exact sia_list. Qed.
Print Assumptions C64_access_locations.

(** the key identifier in a CRL, *)
Theorem C64_key_identifier : forall k, k <> [] -> exists b, encode_crl_key k = Some b /\
  (Z.of_nat (length b) < 2 ^ 31 -> forall rest, decode_key_authority (b ++ rest) = Some k).
Proof. exact crl_key_octets. Qed.
Print Assumptions C64_key_identifier.

(** ROAs, *)
Theorem C64_roa : forall asn l, entries_ok l -> int64 asn ->
  exists blocks content, encode_roa_entries l = Ret blocks /\
    marshal t_roa_content (v_roa_content asn blocks) = Some content /\
    encode_roa asn l = Ret (econtent oid_roa content) /\
    (Z.of_nat (length content) < 2 ^ 31 -> forall rest,
       match read_as t_roa_content roa_content_of (content ++ rest) with
       | Some (a, f) => a = asn /\ convert_entries f = Some (by_family l)
       | None => False
       end).
Proof. exact roa_contents. Qed.
Print Assumptions C64_roa.

(** manifests (through BER2DER). *)
Theorem C64_manifest : forall m, mft_ok m ->
  exists content, marshal t_mft_content (v_mft_content m) = Some content /\ encode_mft m = econtent oid_mft content /\
    (Z.of_nat (length content) < 2 ^ 31 ->
       to_der content = Ret content /\
       forall rest, read_as t_mft_content mft_content_of (content ++ rest) = Some m).
Proof. exact mft_contents. Qed.
Print Assumptions C64_manifest.

Lemma entry0_ok : entries_ok [entry0].
Proof.
  constructor; [|constructor]. split; [|reflexivity]. exists 4%nat, [10; 1; 0; 0], 16.
  split; [reflexivity|]. split; [reflexivity|]. split; [|split; [cbn; lia|split; [reflexivity|discriminate]]].
  split; [reflexivity|]. split; [now left|]. discriminate.
Qed.
Lemma mft0_ok : mft_ok mft0.
Proof.
  split; [discriminate|]. split; [vm_compute; intuition discriminate|]. split; [vm_compute; intuition discriminate|].
  split; [split; [right; cbn; lia|repeat constructor; lia]|].
  constructor; [|constructor]. split; [repeat constructor; lia|].
  split; [reflexivity|]. split; [cbn; lia|]. split; [cbn; lia|]. reflexivity.
Qed.
Lemma can10 : canonical (INet (Some net10)) 4.
Proof.
  apply (can_prefix [10; 0; 0; 0] 8); [|cbn; lia|reflexivity].
  split; [reflexivity|]. split; [now left|]. discriminate.
Qed.

Example C64_example :
  all_canonical [INet (Some net10)] /\ encode_ip_ext [INet (Some net10)] = Ret (Some ip_ext0) /\
  as_list [ASNum 65000; ASRange 1 (-5)] /\
  encode_as_ext [ASNum 65000; ASRange 1 (-5)] [ASNull] =
    Some [48; 21; 160; 15; 48; 13; 2; 3; 0; 253; 232; 48; 6; 2; 1; 1; 2; 1; 251; 161; 2; 5; 0] /\
  entries_ok [entry0] /\ roa_octets0 = [48; 25; 2; 3; 0; 253; 232; 48; 18; 48; 16; 4; 2; 0; 1; 48; 10; 48; 8; 3; 3; 0; 10; 1; 2; 1; 24] /\
  mft_ok mft0 /\ length mft_octets0 = 96%nat /\
  read_as t_mft_content mft_content_of mft_octets0 = Some mft0.
Proof.
  split; [constructor; [exists 4%nat; exact can10|constructor]|]. split; [vm_compute; reflexivity|].
  split; [split; [repeat constructor; cbn; lia|left; intros [X|[X|[]]]; discriminate]|].
  split; [vm_compute; reflexivity|]. split; [exact entry0_ok|]. split; [vm_compute; reflexivity|].
  split; [exact mft0_ok|]. split; vm_compute; reflexivity.
Qed.

(** C65 is false: a ROA is accepted, with a valid inner signature and strict
    checking, although it declares to be a manifest; and a manifest that
    declares to be a ROA. *)
Theorem C65_roa_type_refuted : exists sha256 x509_parse d r s,
  content_type d = Some oid_mft /\ decode_roa sha256 x509_parse true d = Ret (Some (r, s)) /\ roa_inner r = true.
Proof.
  exists sha0, x509_0, roa_as_mft, (mkRoa ee0 65000 [entry0] true), ([entry0], [], []).
  vm_compute. repeat split.
Qed.
Print Assumptions C65_roa_type_refuted.
Theorem C65_manifest_type_refuted : exists sha256 x509_parse d m c,
  content_type d = Some oid_roa /\ decode_mft sha256 x509_parse true d = Ret (Some (m, c)) /\ mft_inner m = true.
Proof.
  exists sha0, x509_0, mft_as_roa. eexists. eexists. split; [vm_compute; reflexivity|].
  split; [vm_compute; reflexivity|]. reflexivity.
Qed.
Print Assumptions C65_manifest_type_refuted.

(** Every signer can do it, with any content type (of at most eleven octets). *)
Theorem C65_any_type_refuted : forall sha256 rsa_sign x509_parse n e certificate ski time ee,
  signer_ready sha256 rsa_sign x509_parse n e certificate ski time ee ->
  Forall (fun i => i <> INet None) (c_ips ee) ->
  forall o asn l, object_id o -> (length (odefault [] (put_oid o)) <= 11)%nat -> entries_ok l -> int64 asn ->
  exists blocks content d,
    encode_roa_entries l = Ret blocks /\ marshal t_roa_content (v_roa_content asn blocks) = Some content /\
    signed_as sha256 rsa_sign certificate ski time o content d /\
    (Z.of_nat (length d) < 2 ^ 31 -> forall rest,
      exists split, validate_roa_list (by_family l) (c_ips ee) = Ret split /\
        decode_roa sha256 x509_parse false (d ++ rest) = Ret (Some (mkRoa ee asn (by_family l) true, split)) /\
        decode_roa sha256 x509_parse true (d ++ rest) =
          (if match cert_algorithm certificate with Some a => beq a rsa_encryption | None => false end
           then Ret (Some (mkRoa ee asn (by_family l) true, split)) else Ret None)).
Proof. exact roa_accepted_any. Qed.
Print Assumptions C65_any_type_refuted.

(** C66. Without the strict check: a ROA made by the library is accepted by it
    with the same AS number and entries, its inner signature valid; *)
Theorem C66_roa_accepted : forall sha256 rsa_sign x509_parse n e certificate ski time ee,
  signer_ready sha256 rsa_sign x509_parse n e certificate ski time ee ->
  Forall (fun i => i <> INet None) (c_ips ee) ->
  forall asn l, entries_ok l -> int64 asn ->
  exists blocks content d,
    encode_roa_entries l = Ret blocks /\ marshal t_roa_content (v_roa_content asn blocks) = Some content /\
    signed_as sha256 rsa_sign certificate ski time oid_roa content d /\
    (Z.of_nat (length d) < 2 ^ 31 -> forall rest,
      exists split, validate_roa_list (by_family l) (c_ips ee) = Ret split /\
        decode_roa sha256 x509_parse false (d ++ rest) = Ret (Some (mkRoa ee asn (by_family l) true, split))).
Proof. exact roa_accepted_roa. Qed.
Print Assumptions C66_roa_accepted.

(** a manifest with the same files and dates; *)
Theorem C66_manifest_accepted : forall sha256 rsa_sign x509_parse n e certificate ski time ee,
  signer_ready sha256 rsa_sign x509_parse n e certificate ski time ee ->
  forall m, mft_ok m ->
  exists content d, marshal t_mft_content (v_mft_content m) = Some content /\
    signed_as sha256 rsa_sign certificate ski time oid_mft content d /\
    (Z.of_nat (length d) < 2 ^ 31 -> forall rest,
      decode_mft sha256 x509_parse false (d ++ rest) =
        Ret (Some (mkMft ee (map (fun f => (fst f, bs_bytes (snd f))) (mc_files m))
                     (unix (mc_this m)) (unix (mc_next m)) true, m))).
Proof. exact mft_accepted_mft. Qed.
Print Assumptions C66_manifest_accepted.

(** an XML message with the same content. *)
Theorem C66_xml_accepted : forall sha256 rsa_sign x509_parse n e certificate ski time ee,
  signer_ready sha256 rsa_sign x509_parse n e certificate ski time ee ->
  forall content, exists d, signed_as sha256 rsa_sign certificate ski time oid_xml content d /\
    (Z.of_nat (length d) < 2 ^ 31 -> forall rest,
       decode_xml sha256 x509_parse (d ++ rest) = Ret (Some (content, ee, true))).
Proof. exact xml_accepted. Qed.
Print Assumptions C66_xml_accepted.

(** With the strict check the library refuses its own objects, if the
    certificate names its algorithm as RFC 7935 demands. *)
Theorem C66_strict_refuted : forall sha256 rsa_sign x509_parse n e certificate ski time ee,
  signer_ready sha256 rsa_sign x509_parse n e certificate ski time ee ->
  cert_algorithm certificate = Some sha256_with_rsa ->
  forall asn l m, entries_ok l -> int64 asn -> mft_ok m ->
  exists blocks content d content' d',
    encode_roa_entries l = Ret blocks /\ marshal t_roa_content (v_roa_content asn blocks) = Some content /\
    signed_as sha256 rsa_sign certificate ski time oid_roa content d /\
    marshal t_mft_content (v_mft_content m) = Some content' /\
    signed_as sha256 rsa_sign certificate ski time oid_mft content' d' /\
    (Z.of_nat (length d) < 2 ^ 31 -> decode_roa sha256 x509_parse true d = Ret None) /\
    (Z.of_nat (length d') < 2 ^ 31 -> decode_mft sha256 x509_parse true d' = Ret None).
Proof. exact strict_refuses. Qed.
Print Assumptions C66_strict_refuted.

Example C66_example :
  signer_ready sha0 rsa0 x509_0 n0 1 (cert_with sha256_with_rsa) [1] time_0 ee0 /\
  Forall (fun i => i <> INet None) (c_ips ee0) /\
  cert_algorithm (cert_with sha256_with_rsa) = Some sha256_with_rsa /\
  decode_roa sha0 x509_0 false (roa0 sha256_with_rsa) =
    Ret (Some (mkRoa ee0 65000 [entry0] true, ([entry0], [], []))) /\
  decode_roa sha0 x509_0 true (roa0 sha256_with_rsa) = Ret None.
Proof.
  split; [|split; [constructor; [discriminate|constructor]|]].
  - split; [exact sha0_ok|]. split; [exact key0|]. split; [apply (cert_sequence 11); lia|]. split; [reflexivity|].
    split; [discriminate|]. split; [vm_compute; intuition discriminate|]. split; vm_compute; reflexivity.
  - split; [vm_compute; reflexivity|]. split; vm_compute; reflexivity.
Qed.

(** C67 is false.  A manifest whose content BER2DER cannot read: both settings,
    whatever the certificate is; the signature has not been looked at. *)
Theorem C67_manifest_refuted : exists d, bytes_ok d = true /\
  forall sha256 x509_parse strict, decode_mft sha256 x509_parse strict d = Panic.
Proof. exists mft_panic. split; [vm_compute; reflexivity|exact mft_panic_panics]. Qed.
Print Assumptions C67_manifest_refuted.

(** A ROA without signers, when the check is not strict (the default). *)
Theorem C67_roa_refuted : exists d, bytes_ok d = true /\
  forall sha256 x509_parse, decode_roa sha256 x509_parse false d = Panic.
Proof. exists (no_signer roa_octets0). split; [vm_compute; reflexivity|exact no_signer_panics]. Qed.
Print Assumptions C67_roa_refuted.

(** A ROA whose certificate has a prefix of an unknown address family. *)
Theorem C67_roa_family_refuted : exists d x509_parse, bytes_ok d = true /\
  forall sha256 strict, decode_roa sha256 x509_parse strict d = Panic.
Proof. exists (roa0 rsa_encryption), x509_bad. split; [vm_compute; reflexivity|exact bad_family_panics]. Qed.
Print Assumptions C67_roa_family_refuted.

(** An XML message without signers. *)
Theorem C67_xml_refuted : exists d, bytes_ok d = true /\
  forall sha256 x509_parse, (forall d, x509_parse d <> None) -> (forall d c e, x509_parse d = Some (c, e) -> e = []) ->
  decode_xml sha256 x509_parse d = Panic.
Proof. exists (no_signer [60; 62]). split; [vm_compute; reflexivity|exact no_signer_xml]. Qed.
Print Assumptions C67_xml_refuted.

(** These are all the panics.  (DecodeCertificate has none: its model returns
    no [go].) *)
Theorem C67_roa_partial : forall sha256 x509_parse strict d, decode_roa sha256 x509_parse strict d = Panic ->
  exists c, decode_cms d = Some c /\
    ((strict = false /\ sd_signers (co_data c) = []) \/
     exists ee, decode_certificate x509_parse (r_bytes (sd_certs (co_data c))) = Some ee /\ In (INet None) (c_ips ee)).
Proof. exact roa_panics. Qed.
Print Assumptions C67_roa_partial.

Theorem C67_manifest_partial : forall sha256 x509_parse strict d, bytes_ok d = true ->
  decode_mft sha256 x509_parse strict d = Panic ->
  exists c, decode_cms d = Some c /\
    ((strict = false /\ sd_signers (co_data c) = []) \/
     exists content bad, bindopt (inner_octets c) grouped = Some (content, bad) /\ ber2der content = BPanic).
Proof. exact mft_panics. Qed.
Print Assumptions C67_manifest_partial.

Theorem C67_xml_partial : forall sha256 x509_parse d, decode_xml sha256 x509_parse d = Panic ->
  exists c, decode_cms d = Some c /\ sd_signers (co_data c) = [].
Proof. exact xml_panics. Qed.
Print Assumptions C67_xml_partial.
