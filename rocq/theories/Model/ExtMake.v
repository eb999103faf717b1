(** Extensions for certificates to be made, and identifiers of keys:
    validator/lib/cert.go:666-760, 832-887, validator/lib/tal.go:108-127. *)
From Verif.Model Require Import Base Str NetIP CertRes Asn1 Der Tal Cms ObjDer TalDer X509.

(** cert.go:667-670 SubStruct.  The elements of the slice are interfaces, which
    encoding/asn1 writes as what is in them. *)
Definition t_access : gotype := GStruct false [(p0, GOid); (p_tagged 6, GString)].
(** cert.go:698-705 CertificatePolicy, CPSStruct *)
Definition t_qualifier : gotype := GStruct false [(p0, GOid); (p_ia5, GString)].
Definition t_policy : gotype := GStruct false [(p0, GOid); (p0, GSlice t_qualifier)].

(** cert.go:20-21, 27-34 *)
Definition oid_ip_blocks : list Z := [1; 3; 6; 1; 5; 5; 7; 1; 7].
Definition oid_as_ids : list Z := [1; 3; 6; 1; 5; 5; 7; 1; 8].
Definition oid_subject_access : list Z := [1; 3; 6; 1; 5; 5; 7; 1; 11].
Definition oid_authority_access : list Z := [1; 3; 6; 1; 5; 5; 7; 1; 1].
Definition oid_ca_issuer : list Z := [1; 3; 6; 1; 5; 5; 7; 48; 2].
Definition oid_signed_object : list Z := [1; 3; 6; 1; 5; 5; 7; 48; 11].
Definition oid_policies : list Z := [2; 5; 29; 32].
Definition oid_resource_policy : list Z := [1; 3; 6; 1; 5; 5; 7; 14; 2].
Definition oid_cps : list Z := [1; 3; 6; 1; 5; 5; 7; 2; 1].

(** cert.go:666-693 EncodeInfoAccess *)
Definition info_access_ext (authority : bool) (path : bytes) : option extension :=
  let oid1 := if authority then oid_authority_access else oid_subject_access in
  let oid2 := if authority then oid_ca_issuer else oid_signed_object in
  opt_map (mkExt oid1 false) (marshal (GSlice t_access) (VSlice [VStruct [] [VOid oid2; VStr path]])).

(** cert.go:696-729 EncodePolicyInformation *)
Definition policy_ext (cps : bytes) : option extension :=
  let qualifiers := match cps with [] => [] | _ => [VStruct [] [VOid oid_cps; VStr cps]] end in
  opt_map (mkExt oid_policies true)
    (marshal (GSlice t_policy) (VSlice [VStruct [] [VOid oid_resource_policy; VSlice qualifiers]])).

(** cert.go:731-760 EncodeIPAddressBlock, 832-862 EncodeASN, 864-887 EncodeSIA:
    the value with its identifier *)
Definition ip_ext (l : list ipinfo) : go (option extension) :=
  match encode_ip_ext l with
  | Ret r => Ret (opt_map (mkExt oid_ip_blocks true) r)
  | Panic => Panic
  end.
Definition as_ext (nums rdi : list asinfo) : option extension :=
  opt_map (mkExt oid_as_ids true) (encode_as_ext nums rdi).
Definition sia_ext (l : list (list Z * bytes)) : option extension :=
  opt_map (mkExt oid_subject_access false) (encode_sia l).

(** tal.go:108-127 HashPublicKey, HashRSAPublicKey.  The Marshal does not
    fail. *)
Definition hash_public_key (sha1 : bytes -> bytes) (k : pubkey) : option bytes :=
  match k with
  | RSAPtr n e | RSAVal n e => Some (sha1 (key_octets n e))
  | OtherKey _ => None
  end.
