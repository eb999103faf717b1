(** The making of revocation lists: validator/lib/crl.go:14-92. *)
From Verif.Model Require Import Base Str NetIP CertRes Roa Asn1 GoTime Der Tal Cms Validator ObjDer TalDer X509.

(** The arguments of CreateCRL and what it takes from the certificate: the
    octets of Subject.ToRDNSequence(), SubjectKeyId, the times as UTC() gives
    them, the entries (serial number, time, extensions; without a serial
    number Marshal fails) and the number of the list. *)
Record crl_order := mkOrder {
  or_name : bytes;
  or_ski : bytes;
  or_now : gotime; or_expiry : gotime;
  or_revoked : list (Z * gotime * list extension);
  or_number : option Z }.

(** crl.go:31-34 *)
Definition v_sha256_rsa : govalue := VStruct [] [VOid oid_sha256_rsa; VRaw (mkRaw 0 false 5 [] [])].
(** x509/pkix/pkix.go:114-118 Extension, 282-286 RevokedCertificate *)
Definition v_extension (e : extension) : govalue :=
  VStruct [] [VOid (e_id e); VBool (e_critical e); VOctets (e_value e)].
Definition v_revoked (r : Z * gotime * list extension) : govalue :=
  let '(n, t, l) := r in VStruct [] [VBig (Some n); VTime t; VSlice (map v_extension l)].

(** The list of entries is made by [make] (crl.go:37) and so is never nil: the
    option of its field (x509/pkix/pkix.go:275) has no effect. *)
Definition t_tbs_made :=
  GStruct false [(p_opt_zero, GInt); (p0, t_alg); (p0, GRaw); (p0, GTime); (p_opt0, GTime);
                 (p0, GSlice t_revoked); (p_opt_wrapped 0, GSlice t_extension)].
Definition t_crl_made := GStruct false [(p0, t_tbs_made); (p0, t_alg); (p0, GBits)].

(** crl.go:43-50 with the extensions of lines 60 and 70 *)
Definition v_tbs_list (o : crl_order) (exts : list extension) : govalue :=
  VStruct [] [VInt 1; v_sha256_rsa; VRaw (raw_full (or_name o)); VTime (or_now o); VTime (or_expiry o);
              VSlice (map v_revoked (or_revoked o)); VSlice (map v_extension exts)].

(** crl.go:53-61 *)
Definition aki_extension (ski : bytes) : option (list extension) :=
  match ski with
  | [] => Some []
  | _ => opt_map (fun v => [mkExt [2; 5; 29; 35] false v]) (encode_crl_key ski)
  end.

Section Make.
  Variable sha256 : bytes -> bytes.
  (** crypto.Signer.Sign with SHA-256 *)
  Variable rsa_sign : bytes -> option bytes.

  (** crl.go:24-92 CreateCRL; the private key is a crypto.Signer. *)
  Definition create_crl (o : crl_order) : option bytes :=
    bindopt (aki_extension (or_ski o)) (fun aki =>
    bindopt (marshal GBig (VBig (or_number o))) (fun n =>
    let tbs := v_tbs_list o (aki ++ [mkExt [2; 5; 29; 20] false n]) in
    bindopt (marshal t_tbs_made tbs) (fun contents =>
    bindopt (rsa_sign (sha256 contents)) (fun sig =>
      marshal t_crl_made (VStruct [] [tbs; v_sha256_rsa; VBits (mkBits sig (8 * Z.of_nat (length sig)))]))))).
End Make.
