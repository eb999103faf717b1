(** RPKI objects as octets: the extensions of certificates, the contents of
    ROAs and manifests and the signed objects around them
    (validator/lib/cert.go, roa.go, manifest.go, xml.go, cms.go, crl.go), with
    encoding/asn1 as in [Der.v]. *)
From Verif.Model Require Import Base Str NetIP CertRes Roa Ber Asn1 GoTime Der Tal Cms Validator.

(** ** The struct types *)
Definition p_tagged (k : Z) : params := mkP false false None (Some k) 0 false false false.
Definition p_opt_tag (k : Z) : params := mkP true false None (Some k) 0 false false false.
Definition p_wrapped (k : Z) : params := mkP false true None (Some k) 0 false false false.
Definition p_opt_wrapped (k : Z) : params := mkP true true None (Some k) 0 false false false.
Definition p_as_set : params := mkP false false None None 0 false true false.
Definition p_opt_set (k : Z) : params := mkP true false None (Some k) 0 false true false.
Definition p_generalized : params := mkP false false None None 0 true false false.
Definition p_ia5 : params := mkP false false None None 22 false false false.
Definition p_minus1 : params := mkP true false (Some (-1)) None 0 false false false.
Definition p_omit_tag (k : Z) : params := mkP false false None (Some k) 0 false false true.

(** roa.go:16-34 ROAIPAddresses, ROAAddressFamily, ROAContent, ROA (also
    manifest.go:32-35 Manifest, xml.go:13-16 XML) *)
Definition t_roa_addr := GStruct false [(p0, GBits); (p_minus1, GInt)].
Definition t_roa_family := GStruct false [(p0, GOctets); (p0, GSlice t_roa_addr)].
Definition t_roa_content := GStruct false [(p0, GInt); (p0, GSlice t_roa_family)].
Definition t_encap := GStruct false [(p0, GOid); (p_opt_wrapped 0, GRaw)].

(** manifest.go:15-30 File, ManifestContent *)
Definition t_file := GStruct false [(p_ia5, GString); (p0, GBits)].
Definition t_mft_content :=
  GStruct false [(p0, GBig); (p_generalized, GTime); (p_generalized, GTime); (p0, GOid); (p0, GSlice t_file)].

(** cert.go:294-297, 335-338 IPAddressFamily, AddrRange *)
Definition t_ip_family := GStruct false [(p0, GOctets); (p0, GRaw)].
Definition t_addr_range := GStruct false [(p0, GBits); (p0, GBits)].

(** cert.go:402-405 ASIdentifiers, 188-191 ASNRange *)
Definition t_as_ids := GStruct false [(p_opt_tag 0, GRaw); (p_opt_tag 1, GRaw)].
Definition t_as_range := GStruct false [(p0, GInt); (p0, GInt)].

(** cert.go:610-613 SIA, 630-632 KeyAuthority; crl.go:19-21 CRLAuthKeyId *)
Definition t_sia := GStruct false [(p0, GOid); (p_tagged 6, GOctets)].
Definition t_key_authority := GStruct false [(p_tagged 0, GOctets)].
Definition t_crl_key := GStruct false [(p_opt_tag 0, GOctets)].

(** cms.go:27-56 Attribute, SignerInfo, CmsSignedData, CMS *)
Definition t_attr := GStruct false [(p0, GOid); (p_as_set, GSlice GRaw)].
Definition t_signer :=
  GStruct false [(p0, GInt); (p0, GRaw); (p0, GSlice GRaw); (p_opt_set 0, GSlice t_attr);
                 (p0, GRaw); (p0, GOctets); (p_opt_tag 1, GRaw)].
Definition t_signed :=
  GStruct false [(p0, GInt); (p_as_set, GSlice GRaw); (p0, GRaw); (p_opt_tag 0, GRaw);
                 (p_opt_tag 1, GRaw); (p_as_set, GSlice t_signer)].
Definition t_cms := GStruct false [(p0, GOid); (p_wrapped 0, t_signed)].

(** cms.go:284-295 tbsCertificate, certificate (RawContent first) *)
Definition p_version : params := mkP true true (Some 0) (Some 0) 0 false false false.
Definition t_tbs := GStruct true [(p_version, GInt); (p0, GRaw); (p0, GRaw)].
Definition t_certificate := GStruct true [(p0, t_tbs); (p0, GRaw)].

(** cms.go:138-150 SignatureInner, SignatureDecoded, SignedAttributesDigest *)
Definition t_sig_inner := GStruct false [(p0, GOid); (p0, GRaw)].
Definition t_signature := GStruct false [(p0, t_sig_inner); (p0, GOctets)].
Definition t_sad := GStruct false [(p_as_set, GSlice t_attr)].

(** ** Go values and their fields *)
Fixpoint map_opt {A B} (f : A -> option B) (l : list A) : option (list B) :=
  match l with
  | [] => Some []
  | a :: l' => match f a with Some b => opt_map (cons b) (map_opt f l') | None => None end
  end.
Definition slice_of {A} (f : govalue -> option A) (v : govalue) : option (list A) :=
  match v with VSlice l => map_opt f l | _ => None end.
Definition raw_of (v : govalue) : option raw := match v with VRaw r => Some r | _ => None end.

Definition roa_addr_of (v : govalue) : option roa_addr :=
  match v with VStruct _ [VBits b; VInt m] => Some (mkAddr b m) | _ => None end.
Definition roa_family_of (v : govalue) : option (bytes * list roa_addr) :=
  match v with
  | VStruct _ [VOctets f; l] => opt_map (fun l => (f, l)) (slice_of roa_addr_of l)
  | _ => None
  end.
Definition roa_content_of (v : govalue) : option (Z * list (bytes * list roa_addr)) :=
  match v with
  | VStruct _ [VInt a; l] => opt_map (fun l => (a, l)) (slice_of roa_family_of l)
  | _ => None
  end.
Definition v_roa_addr (a : roa_addr) : govalue := VStruct [] [VBits (ra_bits a); VInt (ra_maxlen a)].
Definition v_roa_family (f : bytes * list roa_addr) : govalue :=
  VStruct [] [VOctets (fst f); VSlice (map v_roa_addr (snd f))].
Definition v_roa_content (asn : Z) (l : list (bytes * list roa_addr)) : govalue :=
  VStruct [] [VInt asn; VSlice (map v_roa_family l)].

(** manifest.go:24-30 *)
Record mft_content := mkMC {
  mc_number : option Z; mc_this : gotime; mc_next : gotime; mc_alg : list Z;
  mc_files : list (bytes * bitstring) }.
Definition file_of (v : govalue) : option (bytes * bitstring) :=
  match v with VStruct _ [VStr n; VBits h] => Some (n, h) | _ => None end.
Definition mft_content_of (v : govalue) : option mft_content :=
  match v with
  | VStruct _ [VBig n; VTime t1; VTime t2; VOid a; l] => opt_map (mkMC n t1 t2 a) (slice_of file_of l)
  | _ => None
  end.
Definition v_file (f : bytes * bitstring) : govalue := VStruct [] [VStr (fst f); VBits (snd f)].
Definition v_mft_content (m : mft_content) : govalue :=
  VStruct [] [VBig (mc_number m); VTime (mc_this m); VTime (mc_next m); VOid (mc_alg m);
              VSlice (map v_file (mc_files m))].

(** roa.go:31-34, manifest.go:32-35, xml.go:13-16: content type and EContent *)
Record encap := mkEncap { en_oid : list Z; en_content : raw }.
Definition encap_of (v : govalue) : option encap :=
  match v with VStruct _ [VOid o; VRaw r] => Some (mkEncap o r) | _ => None end.
Definition v_encap (e : encap) : govalue := VStruct [] [VOid (en_oid e); VRaw (en_content e)].

(** cms.go:27-56 *)
Record attribute := mkAttribute { at_type : list Z; at_values : list raw }.
Record signer_info := mkSI {
  sg_version : Z; sg_sid : raw; sg_digest : list raw; sg_attrs : list attribute;
  sg_alg : raw; sg_sig : bytes; sg_unsigned : raw }.
Record signed_data := mkSD {
  sd_version : Z; sd_digest : list raw; sd_encap : raw; sd_certs : raw; sd_crls : raw;
  sd_signers : list signer_info }.
Record cms_obj := mkCO { co_oid : list Z; co_data : signed_data }.

Definition attr_of (v : govalue) : option attribute :=
  match v with
  | VStruct _ [VOid o; l] => opt_map (mkAttribute o) (slice_of raw_of l)
  | _ => None
  end.
Definition signer_of (v : govalue) : option signer_info :=
  match v with
  | VStruct _ [VInt n; VRaw sid; d; a; VRaw alg; VOctets s; VRaw u] =>
      match slice_of raw_of d, slice_of attr_of a with
      | Some d, Some a => Some (mkSI n sid d a alg s u)
      | _, _ => None
      end
  | _ => None
  end.
Definition signed_of (v : govalue) : option signed_data :=
  match v with
  | VStruct _ [VInt n; d; VRaw e; VRaw c; VRaw r; s] =>
      match slice_of raw_of d, slice_of signer_of s with
      | Some d, Some s => Some (mkSD n d e c r s)
      | _, _ => None
      end
  | _ => None
  end.
Definition cms_of (v : govalue) : option cms_obj :=
  match v with
  | VStruct _ [VOid o; d] => opt_map (mkCO o) (signed_of d)
  | _ => None
  end.

Definition v_raws (l : list raw) : govalue := VSlice (map VRaw l).
Definition v_attr (a : attribute) : govalue := VStruct [] [VOid (at_type a); v_raws (at_values a)].
Definition v_signer (s : signer_info) : govalue :=
  VStruct [] [VInt (sg_version s); VRaw (sg_sid s); v_raws (sg_digest s); VSlice (map v_attr (sg_attrs s));
              VRaw (sg_alg s); VOctets (sg_sig s); VRaw (sg_unsigned s)].
Definition v_signed (d : signed_data) : govalue :=
  VStruct [] [VInt (sd_version d); v_raws (sd_digest d); VRaw (sd_encap d); VRaw (sd_certs d);
              VRaw (sd_crls d); VSlice (map v_signer (sd_signers d))].
Definition v_cms (c : cms_obj) : govalue := VStruct [] [VOid (co_oid c); v_signed (co_data c)].

(** Unmarshal into one of these types; the rest of the input is ignored
    everywhere. *)
Definition read_as {A} (t : gotype) (f : govalue -> option A) (d : bytes) : option A :=
  match unmarshal t d with Some (v, _) => f v | None => None end.

(** ** Extensions of certificates *)

(** cert.go:323-354: one element of the sequence of addresses; only the tag
    number is looked at. *)
Definition ip_elem (r : raw) : iporange :=
  if r_tag r =? 3 then
    match read_as GBits (fun v => match v with VBits b => Some b | _ => None end) (r_full r) with
    | Some b => OBits b
    | None => OErr
    end
  else if r_tag r =? 16 then
    match read_as t_addr_range (fun v => match v with VStruct _ [VBits a; VBits b] => Some (a, b) | _ => None end) (r_full r) with
    | Some (a, b) => ORange a b
    | None => OErr
    end
  else OOther.
(** cert.go:307-356 *)
Definition ip_choice (r : raw) : ipchoice :=
  if r_tag r =? 5 then ChInherit
  else if r_tag r =? 16 then
    match read_as (GSlice GRaw) (slice_of raw_of) (r_full r) with
    | Some l => ChSeq (map ip_elem l)
    | None => ChErr
    end
  else ChOther.
(** cert.go:293-358 DecodeIPAddressBlock *)
Definition ip_family_of (v : govalue) : option (bytes * ipchoice) :=
  match v with VStruct _ [VOctets f; VRaw r] => Some (f, ip_choice r) | _ => None end.
Definition decode_ip_ext (d : bytes) : list ipinfo * bool :=
  match read_as (GSlice t_ip_family) (slice_of ip_family_of) d with
  | Some blk => decode_ip_block blk
  | None => ([], false)
  end.

(** cert.go:379-394 *)
Definition as_elem (r : raw) : asraw :=
  if r_tag r =? 16 then
    match read_as t_as_range (fun v => match v with VStruct _ [VInt a; VInt b] => Some (a, b) | _ => None end) (r_full r) with
    | Some (a, b) => RSeq a b
    | None => RErr
    end
  else if r_tag r =? 2 then
    match read_as GInt (fun v => match v with VInt a => Some a | _ => None end) (r_full r) with
    | Some a => RInt a
    | None => RErr
    end
  else ROther.
(** cert.go:360-399 DecodeASIdentifier *)
Definition decode_as_id (r : raw) : list asinfo * bool :=
  match read_as GRaw raw_of (r_bytes r) with
  | None => ([], false)
  | Some a =>
      if r_tag a =? 5 then decode_as AInherit
      else if r_tag a =? 16 then
        match read_as (GSlice GRaw) (slice_of raw_of) (r_bytes r) with
        | None => ([], false)
        | Some l => decode_as (ASeq (map as_elem l))
        end
      else decode_as AOther
  end.
(** cert.go:401-427 DecodeASN: AS numbers, routing domains, no error *)
Definition decode_as_ext (d : bytes) : list asinfo * list asinfo * bool :=
  match read_as t_as_ids (fun v => match v with VStruct _ [VRaw a; VRaw b] => Some (a, b) | _ => None end) d with
  | None => ([], [], false)
  | Some (a, b) =>
      let (na, oka) := if r_class a =? 0 then ([], true) else decode_as_id a in
      if oka then
        let (nb, okb) := if r_class b =? 0 then ([], true) else decode_as_id b in (na, nb, okb)
      else (na, [], false)
  end.

(** cert.go:619-626 DecodeSubjectInformationAccess *)
Definition sia_of (v : govalue) : option (list Z * bytes) :=
  match v with VStruct _ [VOid o; VOctets n] => Some (o, n) | _ => None end.
Definition decode_sia (d : bytes) : option (list (list Z * bytes)) := read_as (GSlice t_sia) (slice_of sia_of) d.

(** cert.go:629-648 DecodeKeyAuthority, DecodeKeyIdentifier *)
Definition decode_key_authority (d : bytes) : option bytes :=
  read_as t_key_authority (fun v => match v with VStruct _ [VOctets k] => Some k | _ => None end) d.
Definition decode_key_identifier (d : bytes) : option bytes :=
  read_as GOctets (fun v => match v with VOctets k => Some k | _ => None end) d.

(** An asn1.RawValue with only FullBytes set *)
Definition raw_full (b : bytes) : raw := mkRaw 0 false 0 [] b.
Definition null_octets : bytes := [5; 0].   (* asn1.NullRawValue *)

Definition v_sia (s : list Z * bytes) : govalue := VStruct [] [VOid (fst s); VOctets (snd s)].
Definition marshal_raws (l : list bytes) : option bytes := marshal (GSlice GRaw) (v_raws (map raw_full l)).
Definition bindopt {A B} (o : option A) (f : A -> option B) : option B :=
  match o with Some a => f a | None => None end.

(** cert.go:72-74, 137-139 ASN1 *)
Definition ip_elem_octets (o : iporange) : option bytes :=
  match o with
  | OBits b => marshal GBits (VBits b)
  | ORange a b => marshal (GSlice GBits) (VSlice [VBits a; VBits b])
  | _ => None
  end.
(** cert.go:762-799 EncodeIPAddressBlockVersion: the final Marshal *)
Definition ip_family_octets (f : bytes * ipchoice) : option bytes :=
  match snd f with
  | ChInherit => marshal t_ip_family (VStruct [] [VOctets (fst f); VRaw (raw_full null_octets)])
  | ChSeq l =>
      bindopt (map_opt ip_elem_octets l) (fun bs =>
        marshal (GStruct false [(p0, GOctets); (p0, GSlice GRaw)])
          (VStruct [] [VOctets (fst f); v_raws (map raw_full bs)]))
  | _ => None
  end.
(** cert.go:731-760 EncodeIPAddressBlock *)
Definition encode_ip_ext (l : list ipinfo) : go (option bytes) :=
  let! blk := encode_ip_block l in
  Ret (bindopt (map_opt ip_family_octets blk) marshal_raws).

(** cert.go:205-207, 226-228, 247-249 ASN1 *)
Definition as_octets (a : asinfo) : option bytes :=
  match a with
  | ASRange mn mx => marshal (GSlice GInt) (VSlice [VInt mn; VInt mx])
  | ASNum n => marshal GInt (VInt n)
  | ASNull => Some null_octets
  end.
(** cert.go:802-830 EncodeASNSeq *)
Fixpoint as_until_null (l : list asinfo) : list asinfo * bool :=
  match l with
  | [] => ([], false)
  | ASNull :: _ => ([ASNull], true)
  | a :: l' => let (r, b) := as_until_null l' in (a :: r, b)
  end.
Definition encode_as_seq (l : list asinfo) : option (list bytes) :=
  match l with
  | [] => Some []
  | _ => let (l', null) := as_until_null l in
         bindopt (map_opt as_octets l') (fun bs =>
           if null then Some bs else opt_map (fun m => [m]) (marshal_raws bs))
  end.
(** cert.go:832-863 EncodeASN *)
Definition encode_as_ext (nums rdi : list asinfo) : option bytes :=
  bindopt (encode_as_seq nums) (fun a =>
  bindopt (encode_as_seq rdi) (fun b =>
    marshal (GStruct false [(p_omit_tag 0, GSlice GRaw); (p_omit_tag 1, GSlice GRaw)])
      (VStruct [] [v_raws (map raw_full a); v_raws (map raw_full b)]))).

(** cert.go:865-889 EncodeSIA *)
Definition encode_sia (l : list (list Z * bytes)) : option bytes :=
  bindopt (map_opt (fun s => marshal t_sia (v_sia s)) l) marshal_raws.

(** crl.go:51-60: the authority key identifier of a created CRL *)
Definition encode_crl_key (ski : bytes) : option bytes := marshal t_crl_key (VStruct [] [VOctets ski]).

(** ** Signed objects *)
Definition oid_roa : list Z := [1; 2; 840; 113549; 1; 9; 16; 1; 24].
Definition oid_mft : list Z := [1; 2; 840; 113549; 1; 9; 16; 1; 26].
Definition oid_xml : list Z := [1; 2; 840; 113549; 1; 9; 16; 1; 28].
Definition oid_content_type : list Z := [1; 2; 840; 113549; 1; 9; 3].
Definition oid_digest : list Z := [1; 2; 840; 113549; 1; 9; 4].
Definition oid_signing_time : list Z := [1; 2; 840; 113549; 1; 9; 5].
Definition oid_signed_data : list Z := [1; 2; 840; 113549; 1; 7; 2].
Definition oid_sha256 : list Z := [2; 16; 840; 1; 101; 3; 4; 2; 1].
Definition oid_rsa : list Z := [1; 2; 840; 113549; 1; 1; 1].

(** asn1.ObjectIdentifier.Equal *)
Fixpoint oid_eqb (a b : list Z) : bool :=
  match a, b with
  | [], [] => true
  | x :: a', y :: b' => (x =? y) && oid_eqb a' b'
  | _, _ => false
  end.

(** The part of an object that [Cms.v] reasons about; types of attributes as
    octets. *)
Definition attr_view (a : attribute) : attr :=
  mkAttr (odefault [] (put_oid (at_type a))) (map (fun r => (r_full r, r_bytes r)) (at_values a)).
Definition cms_view (c : cms_obj) : cms :=
  mkCms (r_bytes (sd_certs (co_data c)))
    (map (fun s => mkSigner (map attr_view (sg_attrs s)) (r_full (sg_alg s)) (sg_sig s))
       (sd_signers (co_data c))).

(** cms.go:350-352: Marshal of the attributes as a SET OF; every value has its
    FullBytes. *)
Definition attr_octets (a : attr) : bytes :=
  put_tlv 0 true 16 (put_tlv 0 false 6 (a_type a)
                     ++ put_tlv 0 true 17 (concat (sort_bytes (map fst (a_values a))))).
Definition set_octets (l : list attr) : option bytes :=
  Some (put_tlv 0 true 17 (concat (sort_bytes (map attr_octets l)))).

(** cms.go:284-301: the algorithm identifier in the certificate *)
Definition cert_algorithm (d : bytes) : option bytes :=
  read_as t_certificate
    (fun v => match v with VStruct _ [VStruct _ [VInt _; VRaw _; VRaw a]; VRaw _] => Some (r_full a) | _ => None end) d.

(** cms.go:565-572 DecodeCMS *)
Definition decode_cms (d : bytes) : option cms_obj := read_as t_cms cms_of d.

(** cms.go:418-428 GetSigningTime; SignerInfos[0] panics on an empty list.
    [Ret None] is an error, no attribute the zero time. *)
Fixpoint signing_time_attr (l : list attribute) : option gotime :=
  match l with
  | [] => Some time0
  | a :: l' =>
      if oid_eqb (at_type a) oid_signing_time then
        match at_values a with
        | r :: _ => read_as GTime (fun v => match v with VTime t => Some t | _ => None end) (r_full r)
        | [] => signing_time_attr l'
        end
      else signing_time_attr l'
  end.
Definition get_signing_time (c : cms_obj) : go (option gotime) :=
  match sd_signers (co_data c) with
  | [] => Panic
  | s :: _ => Ret (signing_time_attr (sg_attrs s))
  end.

(** roa.go:275-284, manifest.go:83-98, xml.go:57-67: from the object to the
    octets of its content: the value inside EContent, its contents, and the
    fragments put together (the flag: more than one).  DecodeROA ignores the
    error of the first Unmarshal, but EContent, the last field, is then empty
    and the second fails. *)
Definition inner_octets (c : cms_obj) : option bytes :=
  bindopt (read_as t_encap encap_of (r_full (sd_encap (co_data c)))) (fun e =>
  bindopt (read_as GRaw raw_of (r_bytes (en_content e))) (fun r => Some (r_bytes r))).
Definition grouped (d : bytes) : option (bytes * bool) :=
  match bad_format_group d with
  | Some (full, bad, true) => Some (full, bad)
  | _ => None
  end.

Section Decoders.
  (** crypto/sha256 *)
  Variable sha256 : bytes -> bytes.
  (** x509.ParseCertificate: the fields of the certificate other than its
      resources, and its extensions *)
  Variable x509_parse : bytes -> option (cert * list (list Z * bytes)).

  (** cert.go:421-435, SIA access methods *)
  Definition method_of (o : list Z) : sia_method :=
    if oid_eqb o [1; 3; 6; 1; 5; 5; 7; 48; 10] then SiaManifest
    else if oid_eqb o [1; 3; 6; 1; 5; 5; 7; 48; 5] then SiaRepo
    else if oid_eqb o [1; 3; 6; 1; 5; 5; 7; 48; 13] then SiaNotify
    else SiaOther.
  Definition set_ips (c : cert) (l : list ipinfo) : cert :=
    mkCert (c_ski c) (c_aki c) (c_serial c) (c_not_before c) (c_not_after c) l (c_asns c)
      (c_alg c) (c_key c) (c_sia c) (c_crldp c) (c_body c).
  Definition set_asns (c : cert) (l : list asinfo) : cert :=
    mkCert (c_ski c) (c_aki c) (c_serial c) (c_not_before c) (c_not_after c) (c_ips c) l
      (c_alg c) (c_key c) (c_sia c) (c_crldp c) (c_body c).
  Definition set_sia (c : cert) (l : list (sia_method * bytes)) : cert :=
    mkCert (c_ski c) (c_aki c) (c_serial c) (c_not_before c) (c_not_after c) (c_ips c) (c_asns c)
      (c_alg c) (c_key c) l (c_crldp c) (c_body c).

  (** cert.go:900-922, the loop over the extensions; an error ends it. *)
  Fixpoint decode_extensions (l : list (list Z * bytes)) (c : cert) : option cert :=
    match l with
    | [] => Some c
    | (o, d) :: l' =>
        if oid_eqb o [1; 3; 6; 1; 5; 5; 7; 1; 7] then
          let (ips, ok) := decode_ip_ext d in
          if ok then decode_extensions l' (set_ips c ips) else None
        else if oid_eqb o [1; 3; 6; 1; 5; 5; 7; 1; 8] then
          let '(nums, _, ok) := decode_as_ext d in
          if ok then decode_extensions l' (set_asns c nums) else None
        else if oid_eqb o [1; 3; 6; 1; 5; 5; 7; 1; 11] then
          match decode_sia d with
          | Some s => decode_extensions l' (set_sia c (map (fun x => (method_of (fst x), snd x)) s))
          | None => None
          end
        else decode_extensions l' c
    end.
  (** cert.go:891-923 DecodeCertificate *)
  Definition decode_certificate (d : bytes) : option cert :=
    match x509_parse d with
    | Some (c, exts) => decode_extensions exts (set_sia (set_asns (set_ips c []) []) [])
    | None => None
    end.

  (** roa.go:262-273, manifest.go:70-81: the strict check *)
  Definition strict_ok (strict : bool) (c : cms_obj) : bool :=
    if strict then
      match check_signatures_match cert_algorithm (cms_view c) with Some true => true | _ => false end
    else true.

  (** cms.go:332-379 on the decoded object *)
  Definition validate_obj (c : cms_obj) (content : bytes) (key : pubkey) : go bool :=
    let! r := cms_validate sha256 set_octets (cms_view c) content key in
    Ret (match r with VOk => true | VErr => false end).

  (** roa.go:256-328 DecodeROA *)
  Definition decode_roa (strict : bool) (d : bytes)
    : go (option (roa * (list roa_entry * list roa_entry * list roa_entry))) :=
    match decode_cms d with
    | None => Ret None
    | Some c =>
        if negb (strict_ok strict c) then Ret None
        else match bindopt (inner_octets c) grouped with
        | None => Ret None
        | Some (content, _) =>
            match read_as t_roa_content roa_content_of content with
            | None => Ret None
            | Some (asn, blocks) =>
                match convert_entries blocks with
                | None => Ret None
                | Some entries =>
                    let! _ := get_signing_time c in
                    match decode_certificate (r_bytes (sd_certs (co_data c))) with
                    | None => Ret None
                    | Some ee =>
                        let! ok := validate_obj c content (c_key ee) in
                        let! split := validate_roa_list entries (c_ips ee) in
                        Ret (Some (mkRoa ee asn entries ok, split))
                    end
                end
            end
        end
    end.

  (** manifest.go:100: BER2DER with its error ignored: the result is nil then.
      Running out of fuel does not happen (C23). *)
  Definition to_der (d : bytes) : go bytes :=
    match ber2der d with BOk o => Ret o | BErr => Ret [] | _ => Panic end.

  (** manifest.go:71-130 DecodeManifest *)
  Definition decode_mft (strict : bool) (d : bytes) : go (option (mft * mft_content)) :=
    match decode_cms d with
    | None => Ret None
    | Some c =>
        if negb (strict_ok strict c) then Ret None
        else match bindopt (inner_octets c) grouped with
        | None => Ret None
        | Some (content0, _) =>
            let! content := to_der content0 in
            match read_as t_mft_content mft_content_of content with
            | None => Ret None
            | Some m =>
                match decode_certificate (r_bytes (sd_certs (co_data c))) with
                | None => Ret None
                | Some ee =>
                    let! ok := validate_obj c content (c_key ee) in
                    Ret (Some (mkMft ee (map (fun f => (fst f, bs_bytes (snd f))) (mc_files m))
                                 (unix (mc_this m)) (unix (mc_next m)) ok, m))
                end
            end
        end
    end.

  (** xml.go:51-88 DecodeXML *)
  Definition decode_xml (d : bytes) : go (option (bytes * cert * bool)) :=
    match decode_cms d with
    | None => Ret None
    | Some c =>
        match inner_octets c with
        | None => Ret None
        | Some content =>
            match decode_certificate (r_bytes (sd_certs (co_data c))) with
            | None => Ret None
            | Some ee =>
                let! ok := validate_obj c content (c_key ee) in
                Ret (Some (content, ee, ok))
            end
        end
    end.
End Decoders.

(** ** Making signed objects *)

(** roa.go:124-131, manifest.go:51-61, xml.go:41-50: content as an explicitly
    tagged octet string *)
Definition econtent (oid : list Z) (content : bytes) : option encap :=
  opt_map (fun b => mkEncap oid (raw_full b)) (make_field GOctets (p_wrapped 0) (VOctets content)).

(** roa.go:77-134 EncodeROAEntries *)
Definition encode_roa (asn : Z) (l : list roa_entry) : go (option encap) :=
  let! blocks := encode_roa_entries l in
  Ret (bindopt (marshal t_roa_content (v_roa_content asn blocks)) (econtent oid_roa)).
(** manifest.go:45-62 EncodeManifestContent *)
Definition encode_mft (m : mft_content) : option encap :=
  bindopt (marshal t_mft_content (v_mft_content m)) (econtent oid_mft).
(** xml.go:39-50 EncodeXMLData *)
Definition encode_xml (content : bytes) : option encap := econtent oid_xml content.

(** cms.go:191-211 EContentToEncapBF (EContentToEncap: [skip] is false); only
    the error of the last step comes with octets. *)
Definition to_encap (full : bytes) (skip : bool) : option bytes :=
  bindopt (read_as GRaw raw_of full) (fun r =>
  bindopt (read_as GRaw raw_of (r_bytes r)) (fun r2 =>
    if skip then Some (r_bytes r2) else opt_map fst (grouped (r_bytes r2)))).

(** cms.go:430-563 EncodeCMS.  The type of the content is determined by the Go
    type of the argument, here by the object identifier. *)
Definition marshal_oid (o : list Z) : option bytes := marshal GOid (VOid o).
Definition encode_cms (certificate : bytes) (e : encap) (time : gotime) : option cms_obj :=
  bindopt (marshal t_encap (v_encap e)) (fun val =>
  bindopt (make_field GOctets (p_tagged 0) (VOctets certificate)) (fun certs =>
  bindopt (marshal (GStruct false [(p0, GOid)]) (VStruct [] [VOid oid_sha256])) (fun dgst =>
  bindopt (marshal_oid oid_sha256) (fun oidb =>
  bindopt (marshal_oid (en_oid e)) (fun ctb =>
  bindopt (marshal GTime (VTime time)) (fun stb =>
  bindopt (marshal t_sig_inner (VStruct [] [VOid oid_rsa; VRaw (raw_full null_octets)])) (fun rsab =>
    Some (mkCO oid_signed_data
      (mkSD 3 [raw_full dgst] (raw_full val) (raw_full certs) raw0
        [mkSI 3 raw0 [raw_full oidb]
           [mkAttribute oid_content_type [raw_full ctb]; mkAttribute oid_signing_time [raw_full stb]]
           (raw_full rsab) [] raw0]))))))))).

(** cms.go:162-187 EncryptSignatureRSA: what is signed *)
Definition digest_octets (h : bytes) : option bytes :=
  marshal t_signature (VStruct [] [VStruct [] [VOid oid_sha256; VRaw (raw_full null_octets)]; VOctets h]).

Section Signing.
  Variable sha256 : bytes -> bytes.
  (** rsa.SignPKCS1v15 with the private key, without hashing *)
  Variable rsa_sign : bytes -> option bytes.

  (** cms.go:214-269 Sign.  SignerInfos[0] panics on an empty list; the error
      of the first Marshal is not checked. *)
  Definition sign (c : cms_obj) (ski content certificate : bytes) : go (option cms_obj) :=
    let d := co_data c in
    match sd_signers d with
    | [] => Panic
    | s :: ss =>
        let md := odefault [] (marshal GOctets (VOctets (sha256 content))) in
        let attrs := sg_attrs s ++ [mkAttribute oid_digest [raw_full md]] in
        Ret
          (bindopt (marshal t_sad (VStruct [] [VSlice (map v_attr attrs)])) (fun b =>
             if (length b <? 2)%nat then None
             else
             bindopt (digest_octets (sha256 (skipn 2 b))) (fun di =>
             bindopt (rsa_sign di) (fun sig =>
             bindopt (make_field GOctets (p_opt_tag 0) (VOctets ski)) (fun sid =>
             bindopt (read_as GRaw raw_of certificate) (fun inner =>
             bindopt (make_field (GSlice GRaw) (p_opt_tag 0) (v_raws [inner])) (fun certs =>
               Some (mkCO (co_oid c)
                 (mkSD (sd_version d) (sd_digest d) (sd_encap d) (raw_full certs) (sd_crls d)
                   (mkSI (sg_version s) (raw_full sid) (sg_digest s) attrs (sg_alg s) sig (sg_unsigned s)
                    :: ss))))))))))
    end.
End Signing.

(** cms.go:271-278 AddCRLs *)
Definition add_crls (c : cms_obj) (crls : bytes) : option cms_obj :=
  opt_map (fun b => let d := co_data c in
      mkCO (co_oid c) (mkSD (sd_version d) (sd_digest d) (sd_encap d) (sd_certs d) (raw_full b) (sd_signers d)))
    (make_field (GSlice GRaw) (p_opt_tag 1) (v_raws [raw_full crls])).

(** asn1.Marshal of a CMS *)
Definition marshal_cms (c : cms_obj) : option bytes := marshal t_cms (v_cms c).
