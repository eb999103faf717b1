(** C70-C72: times, AS resources, access locations, manifests and signed
    objects, octet by octet. *)
From Coq Require Import String Lia Bool.
From Verif.Model Require Import Base Str NetIP CertRes Roa Ber Asn1 GoTime Der Tal Cms Validator ObjDer.
From Verif.Spec Require Import Addr Resources Bits BerSpec IpExtSpec ObjSpec TimeSpec ContentSpec SignedSpec.
From Verif.Proofs Require Import TimeProofs ContentProofs SignedProofs SignedThm ObjWitness.

(** C70. Exactly the texts of GeneralizedTime and UTCTime are read, and the
    result has the fields that are written; *)
Theorem C70_generalized : forall l t, parse_generalized l = Some t <-> generalized_text l t.
Proof. exact generalized_exact. Qed.
Print Assumptions C70_generalized.
Theorem C70_utc : forall l t, parse_utc l = Some t <-> utc_text l t.
Proof. exact utc_exact. Qed.
Print Assumptions C70_utc.
(** the number used in comparisons is the number of seconds since 1970 by the
    calendar; *)
Theorem C70_instant : forall t, calendar t -> unix t = instant t.
Proof. exact unix_instant. Qed.
Print Assumptions C70_instant.
(** and in one zone it orders times as their fields do. *)
Theorem C70_order : forall t u, calendar t -> calendar u -> tm_off t = tm_off u ->
  (instant t < instant u <-> before (fields t) (fields u)).
Proof. exact instant_order. Qed.
Print Assumptions C70_order.

Example C70_example :
  parse_generalized (str "20240229235959Z") = Some (mkTime 2024 2 29 23 59 59 0) /\
  unix (mkTime 2024 2 29 23 59 59 0) = 1709251199 /\
  parse_generalized (str "20230229235959Z") = None /\
  parse_utc (str "491231235959Z") = Some (mkTime 2049 12 31 23 59 59 0) /\
  parse_utc (str "500101000000Z") = Some (mkTime 1950 1 1 0 0 0 0) /\
  parse_utc (str "2601010130+0130") = Some (mkTime 2026 1 1 1 30 0 90) /\
  unix (mkTime 2026 1 1 1 30 0 90) = unix (mkTime 2026 1 1 0 0 0 0) /\
  calendar (mkTime 2024 2 29 23 59 59 0).
Proof.
  repeat (match goal with |- _ /\ _ => split end); try (vm_compute; reflexivity); vm_compute; intuition discriminate.
Qed.

(** C71. AS resources, access locations and the contents of manifests are
    accepted only with the structure of [ContentSpec.v], and the result is what
    the structure means. *)
Theorem C71_as_extension : forall d nums rdi, bytes_ok d = true ->
  decode_as_ext d = (nums, rdi, true) -> as_extension d nums rdi.
Proof. exact as_ext_grammar. Qed.
Print Assumptions C71_as_extension.
Theorem C71_access : forall d l, bytes_ok d = true -> decode_sia d = Some l -> access_octets d l.
Proof. exact access_grammar. Qed.
Print Assumptions C71_access.
Theorem C71_manifest : forall d m, bytes_ok d = true -> read_as t_mft_content mft_content_of d = Some m ->
  exists n, mc_number m = Some n /\ manifest_octets d n (mc_this m) (mc_next m) (mc_alg m) (mc_files m).
Proof. exact manifest_grammar. Qed.
Print Assumptions C71_manifest.

Example C71_example :
  decode_as_ext [48; 21; 160; 15; 48; 13; 2; 3; 0; 253; 232; 48; 6; 2; 1; 1; 2; 1; 5; 161; 2; 5; 0] =
    ([ASNum 65000; ASRange 1 5], [ASNull], true) /\
  decode_sia [48; 15; 48; 13; 6; 8; 43; 6; 1; 5; 5; 7; 48; 5; 134; 1; 97] = Some [([1; 3; 6; 1; 5; 5; 7; 48; 5], [97])] /\
  bytes_ok mft_octets0 = true /\ read_as t_mft_content mft_content_of mft_octets0 = Some mft0.
Proof. repeat split; vm_compute; reflexivity. Qed.

(** The property itself is false.  Negative numbers, ranges that end before
    they begin, and elements of another form are accepted; *)
Theorem C71_as_refuted :
  decode_as_ext [48; 7; 160; 5; 48; 3; 2; 1; 255] = ([ASNum (-1)], [], true) /\
  decode_as_ext [48; 12; 160; 10; 48; 8; 48; 6; 2; 1; 5; 2; 1; 3] = ([ASRange 5 3], [], true) /\
  decode_as_ext [48; 7; 160; 5; 48; 3; 4; 1; 7] = ([], [], true).
Proof. repeat split; vm_compute; reflexivity. Qed.
Print Assumptions C71_as_refuted.
(** a manifest may give its times as UTCTime, without seconds, with an offset,
    its file names in UTF-8, hashes of any length, and end with anything. *)
Definition loose_manifest : bytes :=
  [48; 60; 2; 1; 1; 23; 11] ++ str "2601010000Z" ++ [24; 19] ++ str "20260102000000+0100" ++
  [6; 9; 96; 134; 72; 1; 101; 3; 4; 2; 1; 48; 10; 48; 8; 12; 1; 97; 3; 3; 0; 1; 2; 9].
Theorem C71_manifest_refuted :
  read_as t_mft_content mft_content_of loose_manifest =
    Some (mkMC (Some 1) (mkTime 2026 1 1 0 0 0 0) (mkTime 2026 1 2 0 0 0 60) oid_sha256 [([97], mkBits [1; 2] 16)]).
Proof. vm_compute; reflexivity. Qed.
Print Assumptions C71_manifest_refuted.

(** C72. What DecodeROA accepts is a signed object; the AS number and the
    entries are the ones written in its content, the certificate is read from
    its certificates, and if it counts as signed, its first signer's attributes
    give the digest of that content and the signature covers the attributes. *)
Theorem C72_roa : forall sha256, (forall x, List.length (sha256 x) = 32%nat) ->
  forall x509_parse strict d r s, bytes_ok d = true -> Z.of_nat (List.length d) < 2 ^ 48 ->
  decode_roa sha256 x509_parse strict d = Ret (Some (r, s)) ->
  exists o content cert signers, content_type d = Some o /\ signed_object d o content cert signers /\
    roa_octets content (roa_asn r) (roa_entries r) /\ decode_certificate x509_parse cert = Some (roa_cert r) /\
    (roa_inner r = true -> exists n p, c_key (roa_cert r) = RSAPtr n (Zpos p) /\ signature_checked sha256 signers content n p).
Proof. exact roa_written. Qed.
Print Assumptions C72_roa.

(** The same for DecodeManifest; the content is converted from BER first, and
    the update times are the instants written in it. *)
Theorem C72_manifest : forall sha256, (forall x, List.length (sha256 x) = 32%nat) ->
  forall x509_parse strict d m c, bytes_ok d = true -> Z.of_nat (List.length d) < 2 ^ 46 ->
  decode_mft sha256 x509_parse strict d = Ret (Some (m, c)) ->
  exists o inside content cert signers n, content_type d = Some o /\ signed_object d o inside cert signers /\
    ber2der inside = BOk content /\
    manifest_octets content n (mc_this c) (mc_next c) (mc_alg c) (mc_files c) /\
    calendar (mc_this c) /\ calendar (mc_next c) /\
    mft_this m = instant (mc_this c) /\ mft_next m = instant (mc_next c) /\
    mft_files m = map (fun f => (fst f, bs_bytes (snd f))) (mc_files c) /\
    decode_certificate x509_parse cert = Some (mft_cert m) /\
    (mft_inner m = true -> exists k p, c_key (mft_cert m) = RSAPtr k (Zpos p) /\ signature_checked sha256 signers content k p).
Proof. exact mft_written. Qed.
Print Assumptions C72_manifest.

(** A ROA and a manifest that meet the hypotheses *)
Definition mft_signed : bytes := made (cert_with rsa_encryption) (Ret (econtent oid_mft mft_octets0)) mft_octets0.
Example C72_example :
  (forall x, List.length (sha0 x) = 32%nat) /\
  bytes_ok (roa0 rsa_encryption) = true /\ List.length (roa0 rsa_encryption) = 339%nat /\
  decode_roa sha0 x509_0 true (roa0 rsa_encryption) =
    Ret (Some (mkRoa ee0 65000 [entry0] true, ([entry0], [], []))) /\
  bytes_ok mft_signed = true /\
  exists m, decode_mft sha0 x509_0 true mft_signed = Ret (Some (m, mft0)) /\ mft_inner m = true /\ mft_next m - mft_this m = 86400.
Proof.
  split; [intros x; reflexivity|]. split; [vm_compute; reflexivity|]. split; [vm_compute; reflexivity|].
  split; [vm_compute; reflexivity|]. split; [vm_compute; reflexivity|]. eexists.
  split; [vm_compute; reflexivity|]. split; reflexivity.
Qed.

(** The property itself is false: the length of the wrapper around SignedData
    may be anything. *)
Theorem C72_wrapper_refuted :
  let d := roa0 rsa_encryption in
  let d' := firstn 17 d ++ [2; 3] ++ skipn 19 d in
  firstn 4 (skipn 15 d) = [160; 130; 1; 64] /\ firstn 4 (skipn 15 d') = [160; 130; 2; 3] /\
  decode_roa sha0 x509_0 true d' = decode_roa sha0 x509_0 true d /\
  decode_roa sha0 x509_0 true d' = Ret (Some (mkRoa ee0 65000 [entry0] true, ([entry0], [], []))).
Proof. cbv zeta. repeat split; vm_compute; reflexivity. Qed.
Print Assumptions C72_wrapper_refuted.
