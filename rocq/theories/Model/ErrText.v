(** The texts of the manager's errors and the tags given to Sentry:
    validator/pki/errors.go:26-379, the String methods of
    validator/lib/cert.go, and cmd/octorpki/octorpki.go:756-769.  The functions
    on validator and manager are those of [ErrReport] with the errors
    themselves in the place of their types.

    Not modelled: stack traces, and the extras of certificates (dates,
    resources and information access as Go values).  An inner error of a
    CertificateError is kept as its text; the code asks for the text later,
    which makes no difference as errors do not change apart from their files. *)
From Coq Require Import String.
From Verif.Model Require Import Base NetIP CertRes Roa Str TalText NetText Ber Tal Validator Explore ErrReport.
Open Scope Z_scope.

(** errors.go:28-41 ErrorTypeToName *)
Definition kind_name (k : ekind) : bytes :=
  match k with
  | EUnknown => str "unknown"
  | EExpiration => str "expiration"
  | EParent => str "parent"
  | ERevocation => str "revocation"
  | EResource => str "resource"
  | EConflict => str "conflict"
  | EFile => str "file"
  | EManifest => str "manifest"
  | EHash => str "hash"
  | ECrl => str "crl"
  end.

(** pki.go:32-42 TypeToName *)
Definition type_name (t : ftype) : bytes :=
  match t with
  | TUnknown => str "unknown"
  | TCer => str "certificate"
  | TMft => str "manifest"
  | TRoa => str "roa"
  | TCrl => str "crl"
  | TRoaCer => str "roa-ee"
  | TMftCer => str "manifest-ee"
  | TCaRepo => str "ca-repo"
  | TTal => str "tal"
  end.

(** errors.go:43-62 CertificateError, also used for FileError (275); the field
    Parent is never read.  [ce_seek] has the octets and the digest. *)
Record cerr := mkCerr {
  ce_kind : ekind; ce_msg : bytes; ce_inner : option bytes;
  ce_cert : option cert; ce_conflict : option cert;
  ce_ips : list ipinfo; ce_asns : list asinfo;
  ce_innerfile : option pkifile;
  ce_file : option pkifile; ce_seek : option (bytes * bytes) }.

(** The errors: those of package errors and fmt, CertificateError, FileError
    and ResourceError (errors.go:298-310). *)
Inductive err :=
| ErrPlain (t : bytes)
| ErrCert (e : cerr)
| ErrFile (e : cerr)
| ErrRes (k : ekind) (inner : err) (file : option pkifile) (seek : option (bytes * bytes)).

(** errors.go:200-271 *)
Definition err_validity (c : cert) (t : bytes) : cerr :=
  mkCerr EExpiration (str "expiration issue") (Some t) (Some c) None [] [] None None None.
Definition err_parent (c : cert) (t : bytes) : cerr :=
  mkCerr EParent (str "parent issue") (Some t) (Some c) None [] [] None None None.
Definition err_revocation (c : cert) : cerr :=
  mkCerr ERevocation (str "revocation by issuer") None (Some c) None [] [] None None None.
Definition err_resource (c : cert) (ips : list ipinfo) (asns : list asinfo) : cerr :=
  mkCerr EResource (str "resource issue") None (Some c) None ips asns None None None.
Definition err_conflict (c : cert) (o : option cert) : cerr :=
  mkCerr EConflict (str "certificate conflict") None (Some c) o [] [] None None None.
Definition err_manifest (c : cert) (inner : option bytes) (f : pkifile) : cerr :=
  mkCerr EManifest (str "revocation due to manifest issue") inner (Some c) None [] [] (Some f) None None.
Definition err_crl (c : cert) (inner : option bytes) (f : pkifile) : cerr :=
  mkCerr ECrl (str "revocation due to crl issue") inner (Some c) None [] [] (Some f) None None.
(** errors.go:289-296 NewFileError *)
Definition err_file (t : bytes) : cerr :=
  mkCerr EFile (str "file error") (Some t) None None [] [] None None None.
(** errors.go:355-370 NewResourceErrorWrap *)
Definition wrap (e : err) : err :=
  ErrRes (match e with ErrCert c => ce_kind c | _ => EUnknown end) e None None.
(** errors.go:372-379 NewResourceErrorHash *)
Definition err_hash (have want : bytes) : err :=
  ErrRes EHash (ErrPlain (str "file hash is " ++ hexs have ++ str ", expected " ++ hexs want ++ str " from manifest")) None None.

(** errors.go:86-89, 285-287, 350-353 AddFileErrorInfo; other errors have no
    such method (pki.go:124-129). *)
Definition with_file (f : pkifile) (sk : option (bytes * bytes)) (e : cerr) : cerr :=
  mkCerr (ce_kind e) (ce_msg e) (ce_inner e) (ce_cert e) (ce_conflict e) (ce_ips e) (ce_asns e) (ce_innerfile e) (Some f) sk.
Definition add_info (f : pkifile) (sk : option (bytes * bytes)) (e : err) : err :=
  match e with
  | ErrPlain t => ErrPlain t
  | ErrCert c => ErrCert (with_file f sk c)
  | ErrFile c => ErrFile (with_file f sk c)
  | ErrRes k i _ _ => ErrRes k i (Some f) sk
  end.

(** cert.go:194-196, 214-216, 233-235 *)
Definition as_text (a : asinfo) : bytes :=
  match a with
  | ASRange x y => str "Min: " ++ dec x ++ str " max: " ++ dec y
  | ASNum x => dec x
  | ASNull => str "Null ASN"
  end.

Section Texts.
(** The method String of a nil *net.IPNet: a panic before Go 1.18. *)
Variable nil_text : go bytes.

(** cert.go:47-49, 81-83, 147-149 *)
Definition ip_item_text (i : ipinfo) : go bytes :=
  match i with
  | INet (Some n) => Ret (ipnet_text n)
  | INet None => nil_text
  | IRange a b => Ret (str "Min: " ++ ip_text a ++ str " max: " ++ ip_text b)
  | INull f => Ret (str "Null IP " ++ dec f)
  end.
Fixpoint ip_item_texts (l : list ipinfo) : go (list bytes) :=
  match l with
  | [] => Ret []
  | i :: r => let! t := ip_item_text i in let! ts := ip_item_texts r in Ret (t :: ts)
  end.

(** errors.go:107-123: the part on the resources of one kind. *)
Definition res_part (what : bytes) (l : list bytes) : bytes :=
  match l with
  | [] => []
  | _ => str " invalid " ++ what ++ str " resources (" ++ dec (Z.of_nat (length l)) ++ str "): [" ++ join (str ", ") l ++ str "]"
  end.

(** errors.go:91-126 Error *)
Definition cerr_text (e : cerr) : go bytes :=
  let info := match ce_cert e with
              | Some c => str "for certificate ski:" ++ hexs (c_ski c) ++ str " aki:" ++ hexs (c_aki c)
              | None => str "for certificate"
              end in
  let inner := match ce_inner e with Some t => str ": " ++ t | None => [] end in
  let! ips := ip_item_texts (ce_ips e) in
  Ret (ce_msg e ++ str " " ++ info ++ inner ++ res_part (str "IP") ips ++ res_part (str "ASN") (map as_text (ce_asns e))).

(** errors.go:277-279, 320-322 *)
Fixpoint err_text (e : err) : go bytes :=
  match e with
  | ErrPlain t => Ret t
  | ErrCert c | ErrFile c => cerr_text c
  | ErrRes _ i _ _ => err_text i
  end.

(** cert.go:576-607 String; [sia] is the text of one access description. *)
Definition cert_text (sia : sia_method * bytes -> bytes) (c : cert) (rdi : list asinfo) : go bytes :=
  let each l := concat (map (fun t => t ++ str ", ") l) in
  let! ips := ip_item_texts (c_ips c) in
  Ret (str "RPKI Certificate: KeyIdentifier: " ++ hexs (c_ski c) ++ str " / Emitter: " ++ hexs (c_aki c) ++
       str " SIA: [ " ++ each (map sia (c_sia c)) ++ str "] IP Addresses: [ " ++ each ips ++
       str "] ASNs: [ " ++ each (map as_text (c_asns c)) ++ str "] ASNs RDI: [ " ++ each (map as_text (c_asns c)) ++ str "]").
End Texts.

(** The tags of a sentry.Scope: SetTag puts a value in a map, so that the last
    one counts. *)
Definition scope := list (bytes * bytes).
Definition set_tag (k v : bytes) (s : scope) : scope := s ++ [(k, v)].
Fixpoint tag (s : scope) (k : bytes) : option bytes :=
  match s with
  | [] => None
  | (k', v) :: r => match tag r k with Some x => Some x | None => if beq k k' then Some v else None end
  end.

(** errors.go:131-145, 146-161 *)
Definition cert_tags (pre : bytes) (oc : option cert) (s : scope) : scope :=
  match oc with
  | None => s
  | Some c =>
      set_tag (pre ++ str ".SerialNumber") (dec (c_serial c))
        (set_tag (pre ++ str ".AuthorityKeyId") (hexs (c_aki c))
           (set_tag (pre ++ str ".SubjectKeyId") (hexs (c_ski c)) s))
  end.

(** errors.go:162-173, 174-185, 331-342; Repo is [fd_repo]. *)
Definition file_tags (pre : bytes) (o : option pkifile) (s : scope) : scope :=
  match o with
  | None => s
  | Some f =>
      let s1 :=
        match fd_repo (f_desc f) with
        | _ :: _ => set_tag (pre ++ str ".Repository") (fd_repo (f_desc f)) s
        | [] =>
            match f_parent f with
            | Some p =>
                match fd_repo (f_desc p) with
                | _ :: _ => set_tag (pre ++ str ".Repository") (fd_repo (f_desc p)) s
                | [] => s
                end
            | None => s
            end
        end in
      set_tag (pre ++ str ".Type") (type_name (f_type f)) (set_tag (pre ++ str ".Path") (f_path f) s1)
  end.

(** errors.go:128-198 SetSentryScope; the extras on the octets are kept with
    the tags, under the same names. *)
Definition seek_tags (o : option (bytes * bytes)) (s : scope) : scope :=
  match o with
  | None => s
  | Some (d, sha) => set_tag (str "File.Sha256") (hexs sha) (set_tag (str "File.Length") (dec (Z.of_nat (length d))) s)
  end.
Definition cerr_tags (e : cerr) (s : scope) : scope :=
  seek_tags (ce_seek e)
    (file_tags (str "InnerFile") (ce_innerfile e)
       (file_tags (str "File") (ce_file e)
          (cert_tags (str "Conflict") (ce_conflict e)
             (cert_tags (str "Certificate") (ce_cert e)
                (set_tag (str "Type") (kind_name (ce_kind e)) s))))).

(** errors.go:282-284, 324-348 *)
Fixpoint err_tags (e : err) (s : scope) : scope :=
  match e with
  | ErrPlain _ => s
  | ErrCert c | ErrFile c => cerr_tags c s
  | ErrRes k i f sk =>
      seek_tags sk (file_tags (str "File") f (set_tag (str "Type") (kind_name k) (err_tags i s)))
  end.

(** octorpki.go:756-769 logCollector: the tags of one error ([None] is nil)
    of the trust anchor with path [ta]. *)
Definition collected (ta : bytes) (e : option err) : scope :=
  set_tag (str "TrustAnchor") ta (match e with Some x => err_tags x [] | None => [] end).

Section Oracles.
Variable sig_ok : cert -> cert -> bool.
Variable crl_sig_ok : cert -> crl -> bool.
Variable dec_tal : bytes -> option tal.
Variable dec_cert : bytes -> option cert.
Variable dec_roa : bytes -> option roa.
Variable dec_mft : bytes -> option mft.
Variable dec_crl : bytes -> option crl.
Variable hex_sha1 : bytes -> bytes.
Variable disk : bytes -> option bytes.
Variable synced : bytes -> bool.
Variable sha256 : bytes -> bytes.
Variable clock : nat -> Z * Z.
Variable strict_manifests : bool.
Variable strict_hash : bool.
Variable add_invalid : bool.
Variable nil_text : go bytes.
(** time.Time.String; the texts of errors of packages asn1, x509 and os, of
    DecodeTAL, DecodeROA, DecodeManifest, ValidateEntries and
    ExtractPathManifest. *)
Variable time_text : Z -> bytes.
Variable sig_text : cert -> cert -> bytes.
Variable dec_text : ftype -> bytes -> bytes.
Variable entries_text : list roa_entry -> bytes.
Variable roa_inner_text : roa -> bytes.
Variable mft_inner_text : mft -> bytes.
Variable path_text : mft -> bytes.
Variable read_text : pkifile -> bytes.

Notation add_resource := (add_resource sig_ok crl_sig_ok dec_tal dec_cert dec_roa dec_mft dec_crl hex_sha1).
Notation get_next_file := (get_next_file disk synced sha256).

(** cert.go:562-574 ValidateTime: both texts give the beginning of validity. *)
Definition time_error (c : cert) (now : Z) : bytes :=
  (if now <? c_not_before c then str "Certificate beginning of validity: " ++ time_text (c_not_before c) ++ str " is after: "
   else str "Certificate end of validity: " ++ time_text (c_not_before c) ++ str " is before: ") ++ time_text now.

(** pki.go:466-548 ValidateCertificate *)
Definition cert_err (c : cert) (trust : bool) (v : validator) : vres (option cerr) :=
  if negb (time_ok c (v_time v)) then VRet (Some (err_validity c (time_error c (v_time v))))
  else if trust then VRet None
  else
    match v_valid v (c_aki c) with
    | None => VRet (Some (err_parent c (str "missing parent")))
    | Some pa =>
        do! pr := deref (v_heap v) pa in
        match r_obj pr with
        | OCert pc =>
            let ancestor missing :=
              err_parent c (str "ancestor " ++ hexs (c_aki pc) ++
                (if kin (v_valid v) (c_aki pc) then str " is not a rpki certificate" else missing)) in
            if negb (sig_ok pc c) then VRet (Some (err_parent c (sig_text pc c)))
            else if kin (v_revoked v) (serial_key (c_aki c) (c_serial c)) then VRet (Some (err_revocation c))
            else
              let fuel := length (v_heap v) in
              do! (_, inv, chk) := vgo (validate_ip_list (c_ips c) (c_ips pc)) in
              do! oinv := ip_chain fuel (v_heap v) (v_valid v) (c_aki pc) (r_parent pr) chk inv in
              match oinv with
              | None => VRet (Some (ancestor (str " is missing")))
              | Some inv' =>
                  let '(_, ainv, achk) := validate_as_list (c_asns c) (c_asns pc) in
                  do! oainv := as_chain fuel (v_heap v) (v_valid v) (c_aki pc) (r_parent pr) achk ainv in
                  match oainv with
                  | None => VRet (Some (ancestor (str " is not valid")))
                  | Some ainv' =>
                      VRet (match inv', ainv' with [], [] => None | _, _ => Some (err_resource c inv' ainv') end)
                  end
              end
        | _ => VRet (Some (err_parent c (str "parent is not a rpki certificate")))
        end
    end.

(** pki.go:424-436 AddCert: the conflicting object, if it is a certificate. *)
Definition conflict_of (c : cert) (v : validator) : option cert :=
  match v_objects v (c_ski c) with
  | Some a => match nth_error (v_heap v) a with
              | Some r => match r_obj r with OCert o => Some o | _ => None end
              | None => None
              end
  | None => None
  end.
Definition add_cert_err (c : cert) (trust : bool) (v : validator) : vres (option cerr) :=
  if kin (v_objects v) (c_ski c) then VRet (Some (err_conflict c (conflict_of c v))) else cert_err c trust v.

(** pki.go:550-596 AddROA, ValidateROA *)
Definition add_roa_err (r : roa) (v : validator) : vres (option err) :=
  do! e := add_cert_err (roa_cert r) false v in
  let e1 := if validate_entries (roa_entries r) then option_map ErrCert e
            else Some (ErrPlain (str "Could not validate certificate due to wrong entry: " ++ entries_text (roa_entries r))) in
  let e2 := if roa_inner r then e1 else Some (ErrPlain (str "ROA inner validity error: " ++ roa_inner_text r)) in
  VRet (option_map wrap e2).

(** pki.go:598-634 AddManifest; 339-341. *)
Definition add_mft_err (m : mft) (v : validator) : vres (option err) :=
  match extract_path_mft (mft_files m) with
  | None => VRet (Some (ErrPlain (str "Resource is empty: ExtractPathManifest failed: " ++ path_text m)))
  | Some _ =>
      do! e := add_cert_err (mft_cert m) false v in
      let e1 := if mft_inner m then option_map ErrCert e
                else Some (ErrPlain (str "Manifest inner validity error: " ++ mft_inner_text m)) in
      VRet (option_map wrap e1)
  end.

(** pki.go:273-371 AddResource *)
Definition resource_err (f : pkifile) (data : bytes) (v : validator) : vres (option err) :=
  let undecoded := VRet (Some (ErrPlain (dec_text (f_type f) data))) in
  match f_type f with
  | TTal => match dec_tal data with None => undecoded | Some _ => VRet None end
  | TCer =>
      match dec_cert data with
      | None => undecoded
      | Some c =>
          do! ov := check_tal f c v in
          match ov with
          | None => VRet (Some (ErrPlain (str "Certificate was not validated against TAL")))
          | Some v1 => do! e := add_cert_err c (fd_trust (f_desc f)) v1 in VRet (option_map ErrCert e)
          end
      end
  | TRoa => match dec_roa data with None => undecoded | Some r => add_roa_err r v end
  | TMft => match dec_mft data with None => undecoded | Some m => add_mft_err m v end
  | TCrl =>
      match dec_crl data with
      | None => undecoded
      | Some l =>
          do! (v1, (_, a)) := add_crl crl_sig_ok l v in
          do! want := grandparent_path f in
          do! have := parent_file_path v1 a in
          VRet (if beq want have then None
                else Some (ErrPlain (str "CRL " ++ f_path f ++ str " does not match with the parent " ++ want)))
      end
  | _ => VRet (Some (ErrPlain (str "Unknown file type")))
  end.

(** pki.go:773-792 InvalidateManifestParent, always called with a nil error. *)
Definition inval_mft_err (f : pkifile) (s : mgr) : vres (mgr * list (option err)) :=
  match f_parent f with
  | Some p =>
      if is_mft (f_type p) then
        match f_parent p with
        | Some g =>
            if is_cer (f_type g) then
              match m_rop s (f_id g) with
              | Some a =>
                  do! r := deref (v_heap (m_v s)) a in
                  match r_obj r with
                  | OCert c =>
                      do! v := invalidate (c_ski c) (m_v s) in
                      VRet (set_v v s, [Some (add_info g None (ErrCert (err_manifest c None f)))])
                  | _ => VRet (s, [])
                  end
              | None => VRet (s, [])
              end
            else VRet (s, [])
        | None => VRet (s, [])
        end
      else VRet (s, [])
  | None => VRet (s, [])
  end.

(** pki.go:794-813 InvalidateCRLParent *)
Definition inval_crl_err (e : err) (f : pkifile) (s : mgr) : vres (mgr * list (option err)) :=
  match f_parent f with
  | Some p =>
      if is_crl (f_type p) then
        match f_parent p with
        | Some g =>
            if is_cer (f_type g) then
              match v_path (m_v s) (f_path g) with
              | Some a =>
                  do! r := deref (v_heap (m_v s)) a in
                  match r_obj r with
                  | OCert c =>
                      do! v := invalidate (c_ski c) (m_v s) in
                      do! t := vgo (err_text nil_text e) in
                      VRet (set_v v s, [Some (add_info g None (ErrCert (err_crl c (Some t) f)))])
                  | _ => VRet (s, [])
                  end
              | None => VRet (s, [])
              end
            else VRet (s, [])
        | None => VRet (s, [])
        end
      else VRet (s, [])
  | None => VRet (s, [])
  end.

(** pki.go:815-845 ExploreAdd *)
Definition add_errs (f : pkifile) (data sha : bytes) (s : mgr) : vres (mgr * list (option err)) :=
  do! (v, (valid, subs, oa, _)) := add_resource f data (m_v s) in
  do! e := resource_err f data (m_v s) in
  let rs := match e with
            | Some (ErrPlain t) => [Some (add_info f (Some (data, sha)) (ErrFile (err_file t)))]
            | Some x => [Some (add_info f (Some (data, sha)) x)]
            | None => if valid : bool then [] else [None]
            end in
  let s1 := mkM v (m_queue s) (kset (m_explored s) (compute_path f) true) (m_unique s)
                (m_rop s) (m_next s) (m_tick s) in
  if add_invalid || valid then
    let s2 := put_files (number_files (m_next s) (Some f) subs) s1 in
    VRet (mkM (m_v s2) (m_queue s2) (m_explored s2) (m_unique s2)
              (fun i => if Nat.eqb i (f_id f) then oa else m_rop s2 i) (m_next s2 + length subs) (m_tick s2), rs)
  else VRet (s1, rs).

(** pki.go:867-889 *)
Definition check_errs (f : pkifile) (sha : bytes) (s : mgr) : vres (mgr * option err * list (option err)) :=
  match fd_hash (f_desc f) with
  | Some h =>
      if strict_hash then
        do! stale := listed_stale clock f s in
        do! (s1, rs) := (if stale : bool then inval_mft_err f s else VRet (s, [])) in
        VRet (s1, (if beq sha h then None else Some (err_hash sha h)), rs)
      else VRet (s, None, [])
  | None => VRet (s, None, [])
  end.

(** pki.go:891-903; [e] is the error, if there is one. *)
Definition bad_errs (e : option err) (sk : option (bytes * bytes)) (f : pkifile) (s : mgr) : vres (mgr * list (option err)) :=
  do! (s1, r1) := (if strict_manifests then inval_mft_err f s else VRet (s, [])) in
  match e with
  | None => VRet (s1, r1)
  | Some x => do! (s2, r2) := inval_crl_err x f s1 in VRet (s2, r1 ++ Some (add_info f sk x) :: r2)
  end.

(** pki.go:160-174 GetNextFile *)
Definition fetch_err (f : pkifile) (s : mgr) : err :=
  if kin (m_explored s) (compute_path f) then ErrPlain (str "File " ++ compute_path f ++ str " already explored")
  else ErrFile (err_file (read_text f)).

(** pki.go:864-910 *)
Definition file_errs (f : pkifile) (s : mgr) : vres (mgr * list (option err)) :=
  do! r := get_next_file f s in
  match r with
  | SErr => bad_errs (Some (fetch_err f s)) None f s
  | SNone => bad_errs None None f s
  | SData d sha =>
      do! (s1, o, r1) := check_errs f sha s in
      do! (s2, r2) := (match o with
                       | None => add_errs f d sha s1
                       | Some x => bad_errs (Some x) (Some (d, sha)) f s1
                       end) in
      VRet (s2, r1 ++ r2)
  end.

(** pki.go:853-919 *)
Definition iter_errs (s : mgr) : vres (mgr * list (option err)) :=
  match m_queue s with
  | [] => VRet (s, [])
  | f :: q =>
      file_errs f (mkM (m_v s) q (m_explored s) (m_unique s) (m_rop s) (m_next s) (S (m_tick s)))
  end.

(** pki.go:850-921 Explore *)
Fixpoint explore_errs (fuel : nat) (s : mgr) : vres (mgr * list (option err)) :=
  match m_queue s with
  | [] => VRet (s, [])
  | _ :: _ =>
      match fuel with
      | O => VFuel
      | S fuel' =>
          do! (s1, r1) := iter_errs s in
          do! (s2, r2) := explore_errs fuel' s1 in
          VRet (s2, r1 ++ r2)
      end
  end.
End Oracles.
