(** X.509 certificates and revocation lists, octet by octet: x509.ParseCertificate,
    CheckSignatureFrom, ParseDERCRL and CheckCRLSignature, which the code calls
    (cert.go:556, 890; pki.go:354, 666).  crypto/x509 is not part of /repo; the
    vendored copy of it in
    /repo/vendor/github.com/google/certificate-transparency-go/x509 is, cited
    below as "x509/...".  Where the copy and the versions of the library differ,
    the variables of the section leave it open. *)
From Verif.Model Require Import Base Str NetIP CertRes Roa Asn1 GoTime Der Tal Cms Validator ObjDer TalDer.

(** ** The struct types *)
Definition p_opt0 : params := mkP true false None None 0 false false false.
Definition p_opt_zero : params := mkP true false (Some 0) None 0 false false false.

(** x509/pkix/pkix.go:20-23 AlgorithmIdentifier, 114-118 Extension *)
Definition t_alg := GStruct false [(p0, GOid); (p_opt0, GRaw)].
Definition t_extension := GStruct false [(p0, GOid); (p_opt0, GBool); (p0, GOctets)].
(** x509/x509.go:225-227 validity, 229-233 publicKeyInfo, 183-202 certificate,
    tbsCertificate *)
Definition t_validity := GStruct false [(p0, GTime); (p0, GTime)].
Definition t_public_key := GStruct true [(p0, t_alg); (p0, GBits)].
Definition t_tbs_cert :=
  GStruct true [(p_version, GInt); (p0, GBig); (p0, t_alg); (p0, GRaw); (p0, t_validity); (p0, GRaw);
                (p0, t_public_key); (p_opt_tag 1, GBits); (p_opt_tag 2, GBits);
                (p_opt_wrapped 3, GSlice t_extension)].
Definition t_x509 := GStruct true [(p0, t_tbs_cert); (p0, t_alg); (p0, GBits)].
(** x509/x509.go:1307-1310 basicConstraints, 236-238 authKeyId *)
Definition t_basic := GStruct false [(p_opt0, GBool); (p_minus1, GInt)].
Definition t_auth_key := GStruct false [(p_opt_tag 0, GOctets)].
(** x509/pkix/pkix.go:255-259 CertificateList, 268-277 TBSCertificateList (the
    name of the issuer, whose contents are not used, as its octets), 282-286
    RevokedCertificate *)
Definition t_revoked := GStruct false [(p0, GBig); (p0, GTime); (p_opt0, GSlice t_extension)].
Definition t_tbs_list :=
  GStruct true [(p_opt_zero, GInt); (p0, t_alg); (p0, GRaw); (p0, GTime); (p_opt0, GTime);
                (p_opt0, GSlice t_revoked); (p_opt_wrapped 0, GSlice t_extension)].
Definition t_crl := GStruct false [(p0, t_tbs_list); (p0, t_alg); (p0, GBits)].

(** ** Values *)
(** An extension: identifier, critical, value *)
Record extension := mkExt { e_id : list Z; e_critical : bool; e_value : bytes }.
Definition extension_of (v : govalue) : option extension :=
  match v with VStruct _ [VOid o; VBool k; VOctets d] => Some (mkExt o k d) | _ => None end.
Definition alg_of (v : govalue) : option (list Z * bytes) :=
  match v with VStruct _ [VOid o; VRaw r] => Some (o, r_full r) | _ => None end.

Record xcert := mkX {
  xc_tbs : bytes;                   (* RawTBSCertificate *)
  xc_version : Z; xc_serial : Z;
  xc_alg : list Z * bytes;          (* TBSCertificate.SignatureAlgorithm *)
  xc_issuer : bytes; xc_before : gotime; xc_after : gotime; xc_subject : bytes;
  xc_spki : bytes;                  (* RawSubjectPublicKeyInfo *)
  xc_key_alg : list Z * bytes; xc_key : bitstring;
  xc_exts : list extension;
  xc_sig : bitstring }.
Definition xcert_of (v : govalue) : option xcert :=
  match v with
  | VStruct _ [VStruct tbs [VInt ver; VBig (Some serial); alg; VRaw iss; VStruct _ [VTime t1; VTime t2]; VRaw sub;
                            VStruct spki [kalg; VBits key]; VBits _; VBits _; exts]; _; VBits sig] =>
      match alg_of alg, alg_of kalg, slice_of extension_of exts with
      | Some a, Some ka, Some es =>
          Some (mkX tbs ver serial a (r_full iss) t1 t2 (r_full sub) spki ka key es sig)
      | _, _, _ => None
      end
  | _ => None
  end.
(** x509/x509.go:2115-2143 ParseCertificate, the part on the whole *)
Definition x509_read (d : bytes) : option xcert :=
  match unmarshal t_x509 d with
  | Some (v, []) => xcert_of v
  | _ => None
  end.

(** asn1/asn1.go:210-224 RightAlign *)
Fixpoint shift_right (s : Z) (prev : Z) (l : bytes) : bytes :=
  match l with
  | [] => []
  | b :: l' => (prev * 2 ^ (8 - s)) mod 256 + b / 2 ^ s :: shift_right s b l'
  end.
Definition right_align (b : bitstring) : bytes :=
  let s := 8 - bs_len b mod 8 in
  if s =? 8 then bs_bytes b else shift_right s 0 (bs_bytes b).
(** asn1/asn1.go:199-206 At *)
Definition bit_at (b : bitstring) (i : Z) : bool :=
  if (i <? 0) || (bs_len b <=? i) then false
  else negb (nth (Z.to_nat (i / 8)) (bs_bytes b) 0 / 2 ^ (7 - i mod 8) mod 2 =? 0).

(** x509/x509.go:591-605 getPublicKeyAlgorithmFromOID; the numbers of
    PublicKeyAlgorithm are 316-323. *)
Definition key_number (o : list Z) : Z :=
  if oid_eqb o [1; 2; 840; 113549; 1; 1; 1] then 1
  else if oid_eqb o [1; 2; 840; 10040; 4; 1] then 2
  else if oid_eqb o [1; 2; 840; 10045; 2; 1] then 3
  else if oid_eqb o [1; 3; 101; 112] then 4
  else 0.
(** x509/x509.go:1343-1394 parsePublicKey: RSA keys; of others the octets.
    What follows an RSA key is an error in some versions. *)
Definition key_of (x : xcert) : option pubkey :=
  if key_number (fst (xc_key_alg x)) =? 1 then
    if negb (beq (snd (xc_key_alg x)) null_octets) then None
    else match unmarshal t_rsa_key (right_align (xc_key x)) with
    | Some (VStruct _ [VBig (Some n); VInt e], _) =>
        if (0 <? n) && (0 <? e) then Some (RSAPtr n e) else None
    | _ => None
    end
  else Some (OtherKey (right_align (xc_key x))).

(** The facts that extensions state: SubjectKeyId, AuthorityKeyId, KeyUsage (as
    bits; the zero value has none), BasicConstraints (present, CA) *)
Record facts := mkFacts {
  fa_ski : bytes; fa_aki : bytes; fa_usage : list bool; fa_basic : option bool }.
Definition no_facts : facts := mkFacts [] [] [] None.
Definition usage_bits (b : bitstring) : list bool := map (bit_at b) [0; 1; 2; 3; 4; 5; 6; 7; 8].

Section Library.
  (** Are extensions read in certificates that are not of version 3?  (They are
      in the copy, but not from Go 1.17 on.) *)
  Variable all_versions : bool.
  (** Does an authority key identifier without key leave an earlier one as it
      is?  (Not in the copy, but from Go 1.17 on.) *)
  Variable keep_key : bool.
  (** CRLDistributionPoints (x509/x509.go:1520-1553); they only name files to
      look at. *)
  Variable points : list extension -> list bytes.
  (** Other reasons to refuse a certificate: names, other extensions, octets
      after the value of an extension, repeated extensions, ... *)
  Variable more : bytes -> bool.

  Definition extensions (x : xcert) : list extension :=
    if all_versions || (xc_version x =? 2) then xc_exts x else [].

  (** x509/x509.go:1866-1971: the loop over the extensions *)
  Definition add_fact (e : extension) (f : facts) : option facts :=
    if oid_eqb (e_id e) [2; 5; 29; 15] then
      match read_as GBits (fun v => match v with VBits b => Some b | _ => None end) (e_value e) with
      | Some b => Some (mkFacts (fa_ski f) (fa_aki f) (usage_bits b) (fa_basic f))
      | None => None
      end
    else if oid_eqb (e_id e) [2; 5; 29; 19] then
      match read_as t_basic (fun v => match v with VStruct _ [VBool b; VInt _] => Some b | _ => None end) (e_value e) with
      | Some b => Some (mkFacts (fa_ski f) (fa_aki f) (fa_usage f) (Some b))
      | None => None
      end
    else if oid_eqb (e_id e) [2; 5; 29; 35] then
      match read_as t_auth_key (fun v => match v with VStruct _ [VOctets k] => Some k | _ => None end) (e_value e) with
      | Some k => Some (mkFacts (fa_ski f)
                         (match k with [] => if keep_key then fa_aki f else k | _ => k end)
                         (fa_usage f) (fa_basic f))
      | None => None
      end
    else if oid_eqb (e_id e) [2; 5; 29; 14] then
      match decode_key_identifier (e_value e) with
      | Some k => Some (mkFacts k (fa_aki f) (fa_usage f) (fa_basic f))
      | None => None
      end
    else Some f.
  Fixpoint add_facts (l : list extension) (f : facts) : option facts :=
    match l with
    | [] => Some f
    | e :: l' => match add_fact e f with Some f' => add_facts l' f' | None => None end
    end.

  (** x509/x509.go:1816-2076 parseCertificate, 2115-2143 ParseCertificate: the
      fields that the code uses, and the extensions.  [c_body] is the whole. *)
  Definition x509_cert (d : bytes) : option (cert * list (list Z * bytes)) :=
    match x509_read d with
    | None => None
    | Some x =>
        match key_of x, add_facts (extensions x) no_facts with
        | Some k, Some f =>
            if more d then None
            else Some (mkCert (fa_ski f) (fa_aki f) (xc_serial x) (unix (xc_before x)) (unix (xc_after x)) [] []
                         (key_number (fst (xc_key_alg x))) k [] (points (extensions x)) d,
                       map (fun e => (e_id e, e_value e)) (extensions x))
        | _, _ => None
        end
    end.

  (** ** Signatures *)
  Variable sha256 : bytes -> bytes.
  (** Signatures by other algorithms than RSA with SHA-256: the algorithm, the
      octets of the key, the signed octets, the signature *)
  Variable other_sig : list Z * bytes -> bytes -> bytes -> bytes -> bool.
  (** The keys for which the copy makes an exception (x509/x509.go:948-1002). *)
  Variable excused : bytes -> bool.

  (** The octets before the hash in a signature (RFC 8017, section 9.2) *)
  Definition digest_info : bytes := [48; 49; 48; 13; 6; 9; 96; 134; 72; 1; 101; 3; 4; 2; 1; 5; 0; 4; 32].
  (** crypto/rsa VerifyPKCS1v15 with SHA-256; the library is not part of /repo. *)
  Definition key_size (n : Z) : nat := Z.to_nat ((Z.log2 n + 8) / 8).
  Definition rsa_verify (n : Z) (e : positive) (h sig : bytes) : bool :=
    let k := key_size n in
    let t := digest_info ++ h in
    (length t + 11 <=? k)%nat && (length sig =? k)%nat
    && beq (be_bytes k (pow_mod (int_of_bytes sig) e n))
         ([0; 1] ++ repeat 255 (k - 3 - length t) ++ [0] ++ t).

  (** x509/x509.go:1058-1094 checkSignature with 510-526
      SignatureAlgorithmFromAI *)
  Definition oid_sha256_rsa : list Z := [1; 2; 840; 113549; 1; 1; 11].
  Definition check_signature (x : xcert) (alg : list Z * bytes) (signed sig : bytes) : bool :=
    if oid_eqb (fst alg) oid_sha256_rsa then
      match key_of x with
      | Some (RSAPtr n (Zpos e)) => rsa_verify n e (sha256 signed) sig
      | _ => false
      end
    else other_sig alg (xc_spki x) signed sig.

  (** x509/x509.go:1006-1030 CheckSignatureFrom; the parent first.  A
      certificate that was parsed is parsed again from its octets. *)
  Definition check_from (p x : xcert) : bool :=
    match add_facts (extensions p) no_facts with
    | None => false
    | Some f =>
        let bad := match fa_basic f with None => xc_version p =? 2 | Some ca => negb ca end in
        (negb bad || excused (xc_spki x))
        && (negb (existsb (fun b => b) (fa_usage f)) || nth 5 (fa_usage f) false)
        && negb (key_number (fst (xc_key_alg p)) =? 0)
        && check_signature p (xc_alg x) (xc_tbs x) (right_align (xc_sig x))
    end.
  Definition x509_signed (p c : cert) : bool :=
    match x509_read (c_body p), x509_read (c_body c) with
    | Some xp, Some xc => check_from xp xc
    | _, _ => false
    end.

  (** ** Revocation lists *)
  Record xcrl := mkXL {
    xl_tbs : bytes; xl_alg : list Z * bytes; xl_this : gotime; xl_next : gotime;
    xl_revoked : list Z; xl_exts : list extension; xl_sig : bitstring }.
  Definition revoked_of (v : govalue) : option Z :=
    match v with VStruct _ [VBig (Some n); VTime _; _] => Some n | _ => None end.
  Definition xcrl_of (v : govalue) : option xcrl :=
    match v with
    | VStruct _ [VStruct tbs [VInt _; _; VRaw _; VTime t1; VTime t2; rev; exts]; alg; VBits sig] =>
        match alg_of alg, slice_of revoked_of rev, slice_of extension_of exts with
        | Some a, Some r, Some es => Some (mkXL tbs a t1 t2 r es sig)
        | _, _, _ => None
        end
    | _ => None
    end.
  Definition crl_read (d : bytes) : option xcrl :=
    match unmarshal t_crl d with
    | Some (v, []) => xcrl_of v
    | _ => None
    end.
  (** x509/x509.go:2828-2836 ParseDERCRL *)
  Definition x509_crl (d : bytes) : option crl :=
    match crl_read d with
    | None => None
    | Some x =>
        if more d then None
        else Some (mkCrl (map (fun e => (oid_eqb (e_id e) [2; 5; 29; 35], e_value e)) (xl_exts x)) (xl_revoked x) d)
    end.
  (** x509/x509.go:1147-1150 CheckCRLSignature *)
  Definition x509_crl_signed (p : cert) (l : crl) : bool :=
    match x509_read (c_body p), crl_read (crl_body l) with
    | Some xp, Some xl => check_signature xp (xl_alg xl) (xl_tbs xl) (right_align (xl_sig xl))
    | _, _ => false
    end.
End Library.
