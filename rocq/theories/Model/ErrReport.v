(** The error reports of the manager: validator/pki/pki.go:119-129, 773-845,
    850-921 and validator/pki/errors.go.  The functions are those of
    [Validator] and [Explore] with the errors they make; the channel of reports
    is the list of what was sent ([ReportErrors] is set, [Log] is not nil, the
    reader keeps up).

    Not modelled: the texts of errors and what is sent to Sentry. *)
From Verif.Model Require Import Base NetIP CertRes Roa Str Ber Tal Validator Explore.

(** errors.go:12-23, the EType of an error. *)
Inductive ekind :=
| EUnknown | EExpiration | EParent | ERevocation | EResource | EConflict | EFile | EManifest | EHash | ECrl.

(** What is sent: the type of the error ([None]: the error is nil), the files
    in its fields File and InnerFile. *)
Record report := mkRep {
  rp_kind : option ekind;
  rp_file : option pkifile;
  rp_inner : option pkifile }.

Section Oracles.
Variable sig_ok : cert -> cert -> bool.
Variable crl_sig_ok : cert -> crl -> bool.
Variable dec_tal : bytes -> option tal.
Variable dec_cert : bytes -> option cert.
Variable dec_roa : bytes -> option roa.
Variable dec_mft : bytes -> option mft.
Variable dec_crl : bytes -> option crl.
Variable hex_sha1 : bytes -> bytes.
Variable disk : bytes -> option bytes.
Variable synced : bytes -> bool.
Variable sha256 : bytes -> bytes.
Variable clock : nat -> Z * Z.
Variable strict_manifests : bool.
Variable strict_hash : bool.
Variable add_invalid : bool.

Notation add_resource := (add_resource sig_ok crl_sig_ok dec_tal dec_cert dec_roa dec_mft dec_crl hex_sha1).
Notation get_next_file := (get_next_file disk synced sha256).

(** pki.go:466-548 ValidateCertificate, with the type of the error; [None] is
    a nil error. *)
Definition cert_error (c : cert) (trust : bool) (v : validator) : vres (option ekind) :=
  if negb (time_ok c (v_time v)) then VRet (Some EExpiration)
  else if trust then VRet None
  else
    match v_valid v (c_aki c) with
    | None => VRet (Some EParent)
    | Some pa =>
        do! pr := deref (v_heap v) pa in
        match r_obj pr with
        | OCert pc =>
            if negb (sig_ok pc c) then VRet (Some EParent)
            else if kin (v_revoked v) (serial_key (c_aki c) (c_serial c)) then VRet (Some ERevocation)
            else
              let fuel := length (v_heap v) in
              do! (_, inv, chk) := vgo (validate_ip_list (c_ips c) (c_ips pc)) in
              do! oinv := ip_chain fuel (v_heap v) (v_valid v) (c_aki pc) (r_parent pr) chk inv in
              match oinv with
              | None => VRet (Some EParent)
              | Some inv' =>
                  let '(_, ainv, achk) := validate_as_list (c_asns c) (c_asns pc) in
                  do! oainv := as_chain fuel (v_heap v) (v_valid v) (c_aki pc) (r_parent pr) achk ainv in
                  match oainv with
                  | None => VRet (Some EParent)
                  | Some ainv' =>
                      VRet (match inv', ainv' with [], [] => None | _, _ => Some EResource end)
                  end
              end
        | _ => VRet (Some EParent)
        end
    end.

(** pki.go:424-464 AddCert *)
Definition add_cert_error (c : cert) (trust : bool) (v : validator) : vres (option ekind) :=
  if kin (v_objects v) (c_ski c) then VRet (Some EConflict) else cert_error c trust v.

(** pki.go:561-570, 580-585: the later errors take the place of those of
    AddCert; errors.go NewResourceErrorWrap keeps the type of a
    CertificateError only. *)
Definition add_roa_error (r : roa) (v : validator) : vres (option ekind) :=
  do! e := add_cert_error (roa_cert r) false v in
  VRet (if negb (validate_entries (roa_entries r)) || negb (roa_inner r) then Some EUnknown else e).

(** pki.go:598-634 AddManifest; the error of ExtractPathManifest is made
    anew by AddResource (pki.go:339-341). *)
Definition add_mft_error (m : mft) (v : validator) : vres (option ekind) :=
  match extract_path_mft (mft_files m) with
  | None => VRet (Some EFile)
  | Some _ =>
      do! e := add_cert_error (mft_cert m) false v in
      VRet (if negb (mft_inner m) then Some EUnknown else e)
  end.

(** pki.go:279-371 AddResource; errors of other types become FileErrors
    (pki.go:819-828). *)
Definition resource_error (f : pkifile) (data : bytes) (v : validator) : vres (option ekind) :=
  match f_type f with
  | TTal => VRet (match dec_tal data with None => Some EFile | Some _ => None end)
  | TCer =>
      match dec_cert data with
      | None => VRet (Some EFile)
      | Some c =>
          do! ov := check_tal f c v in
          match ov with
          | None => VRet (Some EFile)
          | Some v1 => add_cert_error c (fd_trust (f_desc f)) v1
          end
      end
  | TRoa => match dec_roa data with None => VRet (Some EFile) | Some r => add_roa_error r v end
  | TMft => match dec_mft data with None => VRet (Some EFile) | Some m => add_mft_error m v end
  | TCrl =>
      match dec_crl data with
      | None => VRet (Some EFile)
      | Some l =>
          do! (v1, (_, a)) := add_crl crl_sig_ok l v in
          do! want := grandparent_path f in
          do! have := parent_file_path v1 a in
          VRet (if beq want have then None else Some EFile)
      end
  | _ => VRet (Some EFile)
  end.

(** pki.go:773-792 InvalidateManifestParent *)
Definition inval_mft_rep (f : pkifile) (s : mgr) : vres (mgr * list report) :=
  match f_parent f with
  | Some p =>
      if is_mft (f_type p) then
        match f_parent p with
        | Some g =>
            if is_cer (f_type g) then
              match m_rop s (f_id g) with
              | Some a =>
                  do! r := deref (v_heap (m_v s)) a in
                  match r_obj r with
                  | OCert c =>
                      do! v := invalidate (c_ski c) (m_v s) in
                      VRet (set_v v s, [mkRep (Some EManifest) (Some g) (Some f)])
                  | _ => VRet (s, [])
                  end
              | None => VRet (s, [])
              end
            else VRet (s, [])
        | None => VRet (s, [])
        end
      else VRet (s, [])
  | None => VRet (s, [])
  end.

(** pki.go:794-813 InvalidateCRLParent *)
Definition inval_crl_rep (f : pkifile) (s : mgr) : vres (mgr * list report) :=
  match f_parent f with
  | Some p =>
      if is_crl (f_type p) then
        match f_parent p with
        | Some g =>
            if is_cer (f_type g) then
              match v_path (m_v s) (f_path g) with
              | Some a =>
                  do! r := deref (v_heap (m_v s)) a in
                  match r_obj r with
                  | OCert c =>
                      do! v := invalidate (c_ski c) (m_v s) in
                      VRet (set_v v s, [mkRep (Some ECrl) (Some g) (Some f)])
                  | _ => VRet (s, [])
                  end
              | None => VRet (s, [])
              end
            else VRet (s, [])
        | None => VRet (s, [])
        end
      else VRet (s, [])
  | None => VRet (s, [])
  end.

(** pki.go:815-845 ExploreAdd.  A nil error has no field to put the file in
    (pki.go:124-129). *)
Definition add_rep (f : pkifile) (data : bytes) (s : mgr) : vres (mgr * list report) :=
  do! (v, (valid, subs, oa, _)) := add_resource f data (m_v s) in
  do! e := resource_error f data (m_v s) in
  let rs := match e with
            | Some k => [mkRep (Some k) (Some f) None]
            | None => if valid : bool then [] else [mkRep None None None]
            end in
  let s1 := mkM v (m_queue s) (kset (m_explored s) (compute_path f) true) (m_unique s)
                (m_rop s) (m_next s) (m_tick s) in
  if add_invalid || valid then
    let s2 := put_files (number_files (m_next s) (Some f) subs) s1 in
    VRet (mkM (m_v s2) (m_queue s2) (m_explored s2) (m_unique s2)
              (fun i => if Nat.eqb i (f_id f) then oa else m_rop s2 i) (m_next s2 + length subs) (m_tick s2), rs)
  else VRet (s1, rs).

(** pki.go:867-889: the checks made before a file is used. *)
Definition check_rep (f : pkifile) (sha : bytes) (s : mgr) : vres (mgr * bool * list report) :=
  match fd_hash (f_desc f) with
  | Some h =>
      if strict_hash then
        do! stale := listed_stale clock f s in
        do! (s1, rs) := (if stale : bool then inval_mft_rep f s else VRet (s, [])) in
        VRet (s1, beq sha h, rs)
      else VRet (s, true, [])
  | None => VRet (s, true, [])
  end.

(** pki.go:891-903; [e] is the report of the file's own error. *)
Definition bad_rep (e : list report) (f : pkifile) (s : mgr) : vres (mgr * list report) :=
  do! (s1, r1) := (if strict_manifests then inval_mft_rep f s else VRet (s, [])) in
  match e with
  | [] => VRet (s1, r1)
  | _ :: _ => do! (s2, r2) := inval_crl_rep f s1 in VRet (s2, r1 ++ e ++ r2)
  end.

(** pki.go:160-174 GetNextFile: the error of a file seen before is no
    FileError; that of the reader becomes one. *)
Definition fetch_error (f : pkifile) (s : mgr) : report :=
  if kin (m_explored s) (compute_path f) then mkRep (Some EUnknown) None None else mkRep (Some EFile) (Some f) None.

(** pki.go:864-910: the body of Explore for one file. *)
Definition file_rep (f : pkifile) (s : mgr) : vres (mgr * list report) :=
  do! r := get_next_file f s in
  match r with
  | SErr => bad_rep [fetch_error f s] f s
  | SNone => bad_rep [] f s
  | SData d sha =>
      do! (s1, ok, r1) := check_rep f sha s in
      do! (s2, r2) := (if ok : bool then add_rep f d s1 else bad_rep [mkRep (Some EHash) (Some f) None] f s1) in
      VRet (s2, r1 ++ r2)
  end.

(** One iteration of Explore, pki.go:853-919. *)
Definition iter_rep (s : mgr) : vres (mgr * list report) :=
  match m_queue s with
  | [] => VRet (s, [])
  | f :: q =>
      file_rep f (mkM (m_v s) q (m_explored s) (m_unique s) (m_rop s) (m_next s) (S (m_tick s)))
  end.

(** pki.go:850-921 Explore *)
Fixpoint explore_rep (fuel : nat) (s : mgr) : vres (mgr * list report) :=
  match m_queue s with
  | [] => VRet (s, [])
  | _ :: _ =>
      match fuel with
      | O => VFuel
      | S fuel' =>
          do! (s1, r1) := iter_rep s in
          do! (s2, r2) := explore_rep fuel' s1 in
          VRet (s2, r1 ++ r2)
      end
  end.
End Oracles.
