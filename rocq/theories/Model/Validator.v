(** The object validator: validator/pki/pki.go:190-745.

    Resources live in a heap (a list, the address is the position); the maps of
    the Validator hold addresses.  Objects are the results of the decoders of
    validator/lib and crypto/x509, which are parameters here, as are the
    signature checks. *)
From Coq Require Import String.
From Verif.Model Require Import Base NetIP CertRes Roa Str Tal.

(** pki.go:16-26 *)
Inductive ftype :=
| TUnknown | TCer | TMft | TRoa | TCrl | TRoaCer | TMftCer | TCaRepo | TTal.

Definition is_mft (t : ftype) : bool := match t with TMft => true | _ => false end.
Definition is_cer (t : ftype) : bool := match t with TCer => true | _ => false end.
Definition is_tal (t : ftype) : bool := match t with TTal => true | _ => false end.
Definition is_crl (t : ftype) : bool := match t with TCrl => true | _ => false end.

(** cert.go:421-435 RPKICertificate with the fields of x509.Certificate that
    the code reads.  [c_body] stands for all the other contents of the
    certificate.  Times are seconds.  [c_sia]: AccessMethod and GeneralName. *)
Inductive sia_method := SiaManifest | SiaRepo | SiaNotify | SiaOther.
Record cert := mkCert {
  c_ski : bytes; c_aki : bytes; c_serial : Z;
  c_not_before : Z; c_not_after : Z;
  c_ips : list ipinfo; c_asns : list asinfo;
  c_alg : Z; c_key : pubkey;
  c_sia : list (sia_method * bytes);
  c_crldp : list bytes;
  c_body : bytes }.

(** roa.go:108-134 RPKIROA *)
Record roa := mkRoa {
  roa_cert : cert; roa_asn : Z; roa_entries : list roa_entry; roa_inner : bool }.

(** manifest.go:24-43 RPKIManifest: the certificate, the file list
    (name, hash), the update window. *)
Record mft := mkMft {
  mft_cert : cert; mft_files : list (bytes * bytes);
  mft_this : Z; mft_next : Z; mft_inner : bool }.

(** pkix.CertificateList: the extensions (is it AuthorityKeyIdentifier, and
    the value), the revoked serial numbers, everything else. *)
Record crl := mkCrl {
  crl_exts : list (bool * bytes); crl_serials : list Z; crl_body : bytes }.

Inductive obj :=
| OCert (c : cert)
| ORoa (r : roa)
| OMft (m : mft)
| OCrl (l : crl)
| OTal (t : tal).

(** pki.go:246-254 PKIFile.  [fdesc] holds the fields other than Parent; a
    pointer to a PKIFile is modelled by its identity and its contents, which
    do not change once Parent is set. *)
Record fdesc := mkFile {
  fd_repo : bytes; fd_path : bytes; fd_type : ftype; fd_trust : bool;
  fd_hash : option bytes }.
Inductive pkifile := PFile (id : nat) (d : fdesc) (parent : option pkifile).

Definition f_id (f : pkifile) : nat := match f with PFile i _ _ => i end.
Definition f_desc (f : pkifile) : fdesc := match f with PFile _ d _ => d end.
Definition f_parent (f : pkifile) : option pkifile := match f with PFile _ _ p => p end.
Definition f_path (f : pkifile) : bytes := fd_path (f_desc f).
Definition f_type (f : pkifile) : ftype := fd_type (f_desc f).

(** pki.go:257-267 ComputePath *)
Definition ends_slash (s : bytes) : bool := has_suffix s [47].
Definition compute_path (f : pkifile) : bytes :=
  match f_parent f with
  | Some p =>
      if is_mft (f_type p) then
        let repo := fd_repo (f_desc p) in
        if ends_slash repo then repo ++ f_path f else repo ++ 47 :: f_path f
      else f_path f
  | None => f_path f
  end.

(** pki.go:45-53 Resource *)
Definition addr := nat.
Record resource := mkRes {
  r_type : ftype; r_parent : option addr; r_file : option pkifile;
  r_obj : obj; r_childs : list addr; r_talvalid : bool }.

(** pki.go:190-218 Validator *)
Record validator := mkV {
  v_heap : list resource;
  v_tals : kmap addr;
  v_valid : kmap addr;      (* ValidObjects *)
  v_objects : kmap addr;
  v_path : kmap addr;       (* ObjectsPath *)
  v_serial : kmap addr;     (* CertsSerial *)
  v_revoked : kmap bool;
  v_validcrl : kmap addr;
  v_crl : kmap addr;
  v_validroa : kmap addr;
  v_roa : kmap addr;
  v_validmft : kmap addr;
  v_mft : kmap addr;
  v_time : Z }.

(** pki.go:220-244 NewValidator; [now] is the time of the call. *)
Definition new_validator (now : Z) : validator :=
  mkV [] kempty kempty kempty kempty kempty kempty kempty kempty kempty kempty kempty kempty now.

(** Outcome: result, panic, or the bound on loop iterations exceeded (excluded
    by a theorem). *)
Inductive vres (A : Type) := VRet (a : A) | VPanic | VFuel.
Arguments VRet {A} a. Arguments VPanic {A}. Arguments VFuel {A}.
Definition vbind {A B} (x : vres A) (f : A -> vres B) : vres B :=
  match x with VRet a => f a | VPanic => VPanic | VFuel => VFuel end.
Notation "'do!' x ':=' e 'in' k" := (vbind e (fun x => k))
  (at level 200, x pattern, e at level 100, k at level 200, right associativity).
Definition vgo {A} (x : go A) : vres A :=
  match x with Ret a => VRet a | Panic => VPanic end.

(** Pointer dereference. *)
Definition deref (h : list resource) (a : addr) : vres resource :=
  match nth_error h a with Some r => VRet r | None => VPanic end.

(** Assignments through a pointer. *)
Fixpoint heap_upd (h : list resource) (a : addr) (f : resource -> resource) : list resource :=
  match h, a with
  | [], _ => []
  | r :: h', O => f r :: h'
  | r :: h', S a' => r :: heap_upd h' a' f
  end.
Definition with_type (t : ftype) (r : resource) : resource :=
  mkRes t (r_parent r) (r_file r) (r_obj r) (r_childs r) (r_talvalid r).
Definition with_file (f : option pkifile) (r : resource) : resource :=
  mkRes (r_type r) (r_parent r) f (r_obj r) (r_childs r) (r_talvalid r).
Definition with_child (c : addr) (r : resource) : resource :=
  mkRes (r_type r) (r_parent r) (r_file r) (r_obj r) (r_childs r ++ [c]) (r_talvalid r).
Definition with_talvalid (r : resource) : resource :=
  mkRes (r_type r) (r_parent r) (r_file r) (r_obj r) (r_childs r) true.

Definition set_heap (h : list resource) (v : validator) : validator :=
  mkV h (v_tals v) (v_valid v) (v_objects v) (v_path v) (v_serial v) (v_revoked v)
      (v_validcrl v) (v_crl v) (v_validroa v) (v_roa v) (v_validmft v) (v_mft v) (v_time v).
Definition upd (a : addr) (f : resource -> resource) (v : validator) : validator :=
  set_heap (heap_upd (v_heap v) a f) v.
Definition alloc (r : resource) (v : validator) : validator :=
  set_heap (v_heap v ++ [r]) v.
Definition put_tal k a (v : validator) : validator :=
  mkV (v_heap v) (kset (v_tals v) k a) (v_valid v) (v_objects v) (v_path v) (v_serial v) (v_revoked v)
      (v_validcrl v) (v_crl v) (v_validroa v) (v_roa v) (v_validmft v) (v_mft v) (v_time v).
Definition put_valid k a (v : validator) : validator :=
  mkV (v_heap v) (v_tals v) (kset (v_valid v) k a) (v_objects v) (v_path v) (v_serial v) (v_revoked v)
      (v_validcrl v) (v_crl v) (v_validroa v) (v_roa v) (v_validmft v) (v_mft v) (v_time v).
Definition put_object k a (v : validator) : validator :=
  mkV (v_heap v) (v_tals v) (v_valid v) (kset (v_objects v) k a) (v_path v) (v_serial v) (v_revoked v)
      (v_validcrl v) (v_crl v) (v_validroa v) (v_roa v) (v_validmft v) (v_mft v) (v_time v).
Definition put_path k a (v : validator) : validator :=
  mkV (v_heap v) (v_tals v) (v_valid v) (v_objects v) (kset (v_path v) k a) (v_serial v) (v_revoked v)
      (v_validcrl v) (v_crl v) (v_validroa v) (v_roa v) (v_validmft v) (v_mft v) (v_time v).
Definition put_serial k a (v : validator) : validator :=
  mkV (v_heap v) (v_tals v) (v_valid v) (v_objects v) (v_path v) (kset (v_serial v) k a) (v_revoked v)
      (v_validcrl v) (v_crl v) (v_validroa v) (v_roa v) (v_validmft v) (v_mft v) (v_time v).
Definition put_revoked k (v : validator) : validator :=
  mkV (v_heap v) (v_tals v) (v_valid v) (v_objects v) (v_path v) (v_serial v) (kset (v_revoked v) k true)
      (v_validcrl v) (v_crl v) (v_validroa v) (v_roa v) (v_validmft v) (v_mft v) (v_time v).
Definition put_validcrl k a (v : validator) : validator :=
  mkV (v_heap v) (v_tals v) (v_valid v) (v_objects v) (v_path v) (v_serial v) (v_revoked v)
      (kset (v_validcrl v) k a) (v_crl v) (v_validroa v) (v_roa v) (v_validmft v) (v_mft v) (v_time v).
Definition put_crl k a (v : validator) : validator :=
  mkV (v_heap v) (v_tals v) (v_valid v) (v_objects v) (v_path v) (v_serial v) (v_revoked v)
      (v_validcrl v) (kset (v_crl v) k a) (v_validroa v) (v_roa v) (v_validmft v) (v_mft v) (v_time v).
Definition put_validroa k a (v : validator) : validator :=
  mkV (v_heap v) (v_tals v) (v_valid v) (v_objects v) (v_path v) (v_serial v) (v_revoked v)
      (v_validcrl v) (v_crl v) (kset (v_validroa v) k a) (v_roa v) (v_validmft v) (v_mft v) (v_time v).
Definition put_roa k a (v : validator) : validator :=
  mkV (v_heap v) (v_tals v) (v_valid v) (v_objects v) (v_path v) (v_serial v) (v_revoked v)
      (v_validcrl v) (v_crl v) (v_validroa v) (kset (v_roa v) k a) (v_validmft v) (v_mft v) (v_time v).
Definition put_validmft k a (v : validator) : validator :=
  mkV (v_heap v) (v_tals v) (v_valid v) (v_objects v) (v_path v) (v_serial v) (v_revoked v)
      (v_validcrl v) (v_crl v) (v_validroa v) (v_roa v) (kset (v_validmft v) k a) (v_mft v) (v_time v).
Definition put_mft k a (v : validator) : validator :=
  mkV (v_heap v) (v_tals v) (v_valid v) (v_objects v) (v_path v) (v_serial v) (v_revoked v)
      (v_validcrl v) (v_crl v) (v_validroa v) (v_roa v) (v_validmft v) (kset (v_mft v) k a) (v_time v).

(** pki.go:384-387: the three deletes of InvalidateObject. *)
Definition drop_key k (v : validator) : validator :=
  mkV (v_heap v) (v_tals v) (kdel (v_valid v) k) (v_objects v) (v_path v) (v_serial v) (v_revoked v)
      (kdel (v_validcrl v) k) (v_crl v) (kdel (v_validroa v) k) (v_roa v) (v_validmft v) (v_mft v) (v_time v).

(** pki.go:269-275 ObjectToResource, with the fields set right after it. *)
Definition new_res (t : ftype) (parent : option addr) (f : option pkifile) (o : obj) : resource :=
  mkRes t parent f o [] false.

(** pki.go:55-65 GetIdentifier *)
Definition identifier (o : obj) : option bytes :=
  match o with
  | OCert c => Some (c_ski c)
  | ORoa r => Some (c_ski (roa_cert r))
  | OMft m => Some (c_ski (mft_cert m))
  | _ => None
  end.

(** pki.go:391-398: identifiers of the children of a resource. *)
Fixpoint child_ids (h : list resource) (l : list addr) : vres (list bytes) :=
  match l with
  | [] => VRet []
  | a :: l' =>
      do! r := deref h a in
      do! ids := child_ids h l' in
      VRet (match identifier (r_obj r) with Some k => k :: ids | None => ids end)
  end.

(** pki.go:378-401, the work list loop of InvalidateObject. *)
Fixpoint inval_loop (fuel : nat) (queue : list bytes) (done : kmap bool) (v : validator)
  : vres validator :=
  match queue with
  | [] => VRet v
  | ski :: queue' =>
      match fuel with
      | O => VFuel
      | S fuel' =>
          if kin done ski then inval_loop fuel' queue' done v
          else
            let v' := drop_key ski v in
            let done' := kset done ski true in
            match v_objects v ski with
            | None => inval_loop fuel' queue' done' v'
            | Some a =>
                do! r := deref (v_heap v) a in
                do! ids := child_ids (v_heap v) (r_childs r) in
                inval_loop fuel' (queue' ++ ids) done' v'
            end
      end
  end.

(** pki.go:373-405 InvalidateObject.  The bound is the number of child links
    plus one. *)
Definition child_total (h : list resource) : nat :=
  fold_right (fun r n => (length (r_childs r) + n)%nat) O h.
Definition invalidate (k : bytes) (v : validator) : vres validator :=
  inval_loop (S (child_total (v_heap v))) [k] kempty v.

(** pki.go:699-712 DetermineType *)
Definition determine_type (path : bytes) : ftype :=
  if Nat.ltb 4 (length path) then
    if has_suffix path (str ".cer") then TCer
    else if has_suffix path (str ".mft") then TMft
    else if has_suffix path (str ".crl") then TCrl
    else if has_suffix path (str ".roa") then TRoa
    else TUnknown
  else TUnknown.

(** pki.go:714-745 ExtractPathCert.  The loop over the subject information
    access entries keeps the last manifest and the last repository. *)
Fixpoint last_sia (p : sia_method -> bool) (l : list (sia_method * bytes)) (d : option bytes)
  : option bytes :=
  match l with
  | [] => d
  | (m, n) :: l' => last_sia p l' (if p m then Some n else d)
  end.
Definition is_sia_mft m := match m with SiaManifest => true | _ => false end.
Definition is_sia_repo m := match m with SiaRepo => true | _ => false end.
Definition extract_path_cert (c : cert) : list fdesc :=
  let repo := odefault [] (last_sia is_sia_repo (c_sia c) None) in
  map (fun p => mkFile repo p TCrl false None) (c_crldp c) ++
  match last_sia is_sia_mft (c_sia c) None with
  | Some p => [mkFile repo p TMft false None]
  | None => []
  end.

(** pki.go:748-766 ExtractPathManifest; [None] is the error. *)
Definition bad_path (p : bytes) : bool :=
  contains p (str "../") || contains p (str "..\").
Fixpoint extract_path_mft (l : list (bytes * bytes)) : option (list fdesc) :=
  match l with
  | [] => Some []
  | (name, hash) :: l' =>
      if bad_path name then None
      else match extract_path_mft l' with
           | None => None
           | Some r => Some (mkFile [] name (determine_type name) false (Some hash) :: r)
           end
  end.

(** pki.go:636-646: the key identifier in a CRL, the last
    AuthorityKeyIdentifier extension longer than 4 bytes. *)
Fixpoint crl_aki (l : list (bool * bytes)) (cur : bytes) : bytes :=
  match l with
  | [] => cur
  | (isaki, val) :: l' =>
      crl_aki l' (if isaki && Nat.ltb 4 (length val) then skipn 4 val else cur)
  end.

(** aki + SerialNumber.String(), pki.go:453, 504, 669 *)
Definition serial_key (aki : bytes) (s : Z) : bytes := aki ++ dec s.

Section Oracles.
(** [cert.Certificate.CheckSignatureFrom(parent.Certificate)], parent first. *)
Variable sig_ok : cert -> cert -> bool.
(** [parentCert.Certificate.CheckCRLSignature(crl)]. *)
Variable crl_sig_ok : cert -> crl -> bool.
(** Decoders: [None] is an error. *)
Variable dec_tal : bytes -> option tal.
Variable dec_cert : bytes -> option cert.
Variable dec_roa : bytes -> option roa.
Variable dec_mft : bytes -> option mft.
Variable dec_crl : bytes -> option crl.
Variable hex_sha1 : bytes -> bytes.

(** cert.go:563-574 ValidateTime *)
Definition time_ok (c : cert) (now : Z) : bool :=
  negb (now <? c_not_before c) && negb (c_not_after c <? now).

(** pki.go:494-512, the loop over the ancestors for IP resources.  The key
    looked up is that of the issuer of the issuer at each iteration.  [None]
    is an error, otherwise the invalid elements. *)
Fixpoint ip_chain (fuel : nat) (h : list resource) (valid : kmap addr) (key : bytes)
  (chain : option addr) (check inv : list ipinfo) : vres (option (list ipinfo)) :=
  match chain, check with
  | Some a, _ :: _ =>
      match fuel with
      | O => VFuel
      | S fuel' =>
          match valid key with
          | None => VRet None
          | Some u =>
              do! ur := deref h u in
              match r_obj ur with
              | OCert cc =>
                  do! (_, i, c) := vgo (validate_ip_list check (c_ips cc)) in
                  do! ar := deref h a in
                  ip_chain fuel' h valid key (r_parent ar) c (inv ++ i)
              | _ => VRet None
              end
          end
      end
  | _, _ => VRet (Some inv)
  end.

(** pki.go:517-535, the same loop for AS numbers. *)
Fixpoint as_chain (fuel : nat) (h : list resource) (valid : kmap addr) (key : bytes)
  (chain : option addr) (check inv : list asinfo) : vres (option (list asinfo)) :=
  match chain, check with
  | Some a, _ :: _ =>
      match fuel with
      | O => VFuel
      | S fuel' =>
          match valid key with
          | None => VRet None
          | Some u =>
              do! ur := deref h u in
              match r_obj ur with
              | OCert cc =>
                  let '(_, i, c) := validate_as_list check (c_asns cc) in
                  do! ar := deref h a in
                  as_chain fuel' h valid key (r_parent ar) c (inv ++ i)
              | _ => VRet None
              end
          end
      end
  | _, _ => VRet (Some inv)
  end.

(** pki.go:466-548 ValidateCertificate; [true] is a nil error. *)
Definition validate_cert (c : cert) (trust : bool) (v : validator) : vres bool :=
  if negb (time_ok c (v_time v)) then VRet false
  else if trust then VRet true
  else
    match v_valid v (c_aki c) with
    | None => VRet false
    | Some pa =>
        do! pr := deref (v_heap v) pa in
        match r_obj pr with
        | OCert pc =>
            if negb (sig_ok pc c) then VRet false
            else if kin (v_revoked v) (serial_key (c_aki c) (c_serial c)) then VRet false
            else
              let fuel := length (v_heap v) in
              do! (_, inv, chk) := vgo (validate_ip_list (c_ips c) (c_ips pc)) in
              do! oinv := ip_chain fuel (v_heap v) (v_valid v) (c_aki pc) (r_parent pr) chk inv in
              match oinv with
              | None => VRet false
              | Some inv' =>
                  let '(_, ainv, achk) := validate_as_list (c_asns c) (c_asns pc) in
                  do! oainv := as_chain fuel (v_heap v) (v_valid v) (c_aki pc) (r_parent pr) achk ainv in
                  match oainv with
                  | None => VRet false
                  | Some ainv' =>
                      VRet (match inv', ainv' with [], [] => true | _, _ => false end)
                  end
              end
        | _ => VRet false
        end
    end.

(** pki.go:424-464 AddCert: (valid, files, resource, error). *)
Definition add_cert (c : cert) (trust : bool) (v : validator)
  : vres (validator * (bool * list fdesc * addr * bool)) :=
  let a := length (v_heap v) in
  if kin (v_objects v) (c_ski c)
  then VRet (alloc (new_res TUnknown None None (OCert c)) v, (false, [], a, true))
  else
    let parent := v_objects v (c_aki c) in
    let valid0 := kin (v_valid v) (c_aki c) || trust in
    do! ok := validate_cert c trust v in
    let valid := valid0 && ok in
    let v1 := alloc (new_res TUnknown parent None (OCert c)) v in
    let v2 := match parent with
              | Some p => if valid then put_serial (serial_key (c_aki c) (c_serial c)) a (upd p (with_child a) v1)
                          else v1
              | None => v1
              end in
    let v3 := if valid then put_valid (c_ski c) a v2 else v2 in
    let v4 := put_object (c_ski c) a v3 in
    VRet (v4, (valid, extract_path_cert c, a, negb ok)).

(** pki.go:550-588 AddROA: (valid, resource, error).  [nil] is never returned
    as resource by AddCert. *)
Definition add_roa (f : option pkifile) (r : roa) (v : validator)
  : vres (validator * (bool * addr * bool)) :=
  do! (v1, (valid, _, a, err)) := add_cert (roa_cert r) false v in
  let v2 := upd a (fun x => with_type TRoaCer (with_file f x)) v1 in
  let entries_ok := validate_entries (roa_entries r) in
  let valid := valid && entries_ok && roa_inner r in
  let err := err || negb entries_ok || negb (roa_inner r) in
  let b := length (v_heap v2) in
  let v3 := upd a (with_child b) (alloc (new_res TRoa (Some a) f (ORoa r)) v2) in
  let k := c_ski (roa_cert r) in
  let v4 := if valid then put_validroa k b v3 else v3 in
  VRet (put_roa k b v4, (valid, b, err)).

(** pki.go:598-634 AddManifest: (valid, files, resource, error). *)
Definition add_mft (f : option pkifile) (m : mft) (v : validator)
  : vres (validator * (bool * list fdesc * option addr * bool)) :=
  match extract_path_mft (mft_files m) with
  | None => VRet (v, (false, [], None, true))
  | Some paths =>
      do! (v1, (valid, _, a, err)) := add_cert (mft_cert m) false v in
      let v2 := upd a (fun x => with_type TMftCer (with_file f x)) v1 in
      let valid := valid && mft_inner m in
      let err := err || negb (mft_inner m) in
      let b := length (v_heap v2) in
      let v3 := upd a (with_child b) (alloc (new_res TMft (Some a) f (OMft m)) v2) in
      let k := c_ski (mft_cert m) in
      let v4 := if valid then put_validmft k b v3 else v3 in
      VRet (put_mft k b v4, (valid, paths, Some b, err))
  end.

(** pki.go:668-680, the loop over the revoked certificates. *)
Fixpoint revoke_loop (aki : bytes) (l : list Z) (v : validator) : vres validator :=
  match l with
  | [] => VRet v
  | s :: l' =>
      let k := serial_key aki s in
      do! v1 := match v_serial v k with
                | Some a =>
                    do! r := deref (v_heap v) a in
                    match r_obj r with
                    | OCert c => if c_serial c =? s then invalidate (c_ski c) v else VRet v
                    | _ => VPanic
                    end
                | None => VRet v
                end in
      revoke_loop aki l' (put_revoked k v1)
  end.

(** pki.go:636-689 AddCRL: (valid, resource); the error is always nil. *)
Definition add_crl (l : crl) (v : validator) : vres (validator * (bool * addr)) :=
  let aki := crl_aki (crl_exts l) [] in
  let parent := v_objects v aki in
  let a := length (v_heap v) in
  let v1 := alloc (new_res TCrl parent None (OCrl l)) v in
  do! (v2, valid) :=
    (if kin (v_valid v) aki then
       match parent with
       | None => VPanic (* parentCert is nil *)
       | Some p =>
           do! pr := deref (v_heap v) p in
           match r_obj pr with
           | OCert pc =>
               if crl_sig_ok pc l then
                 do! v3 := revoke_loop aki (crl_serials l) (put_validcrl aki a v1) in
                 VRet (upd p (with_child a) v3, true)
               else VRet (v1, false)
           | _ => VRet (v1, false)
           end
       end
     else VRet (v1, false)) in
  VRet (put_crl aki a v2, (valid, a)).

(** pki.go:407-422 AddTAL: (files, resource). *)
Definition add_tal (t : tal) (v : validator) : validator * (list fdesc * addr) :=
  let uri := get_rsync_uri hex_sha1 t in
  let a := length (v_heap v) in
  (put_tal uri a (alloc (new_res TTal None None (OTal t)) v),
   ([mkFile [] uri TCer true None], a)).

(** pki.go:302-311: the check of a certificate against its TAL.  [None]: the
    check failed. *)
Definition check_tal (f : pkifile) (c : cert) (v : validator) : vres (option validator) :=
  match f_parent f with
  | Some p =>
      if is_tal (f_type p) then
        match v_tals v (f_path f) with
        | Some a =>
            do! r := deref (v_heap v) a in
            match r_obj r with
            | OTal t =>
                do! ok := vgo (check_certificate t (c_alg c) (c_key c)) in
                VRet (if ok : bool then Some (upd a with_talvalid v) else None)
            | _ => VPanic
            end
        | None => VRet (Some v)
        end
      else VRet (Some v)
  | None => VRet (Some v)
  end.

(** pki.go:359: [pkifile.Parent.Parent.Path] *)
Definition grandparent_path (f : pkifile) : vres bytes :=
  match f_parent f with
  | Some p => match f_parent p with Some g => VRet (f_path g) | None => VPanic end
  | None => VPanic
  end.

(** pki.go:359: [res.Parent.File.Path] *)
Definition parent_file_path (v : validator) (a : addr) : vres bytes :=
  do! r := deref (v_heap v) a in
  match r_parent r with
  | None => VPanic
  | Some p =>
      do! pr := deref (v_heap v) p in
      match r_file pr with Some f => VRet (f_path f) | None => VPanic end
  end.

(** Result of AddResource: (valid, files, resource, error). *)
Definition add_result : Type := bool * list fdesc * option addr * bool.
Definition add_error : add_result := (false, [], None, true).

(** pki.go:277-371 AddResource *)
Definition add_resource (f : pkifile) (data : bytes) (v : validator)
  : vres (validator * add_result) :=
  match f_type f with
  | TTal =>
      match dec_tal data with
      | None => VRet (v, add_error)
      | Some t =>
          let '(v1, (paths, a)) := add_tal t v in
          VRet (upd a (with_file (Some f)) v1, (true, paths, Some a, false))
      end
  | TCer =>
      match dec_cert data with
      | None => VRet (v, add_error)
      | Some c =>
          do! ov := check_tal f c v in
          match ov with
          | None => VRet (v, add_error)
          | Some v1 =>
              do! (v2, (valid, paths, a, err)) := add_cert c (fd_trust (f_desc f)) v1 in
              let v3 := upd a (fun x => with_file (Some f) (with_type TCer x)) v2 in
              VRet (put_path (f_path f) a v3, (valid, paths, Some a, err))
          end
      end
  | TRoa =>
      match dec_roa data with
      | None => VRet (v, add_error)
      | Some r =>
          do! (v1, (valid, a, err)) := add_roa (Some f) r v in
          VRet (put_path (f_path f) a (upd a (with_file (Some f)) v1), (valid, [], Some a, err))
      end
  | TMft =>
      match dec_mft data with
      | None => VRet (v, add_error)
      | Some m =>
          do! (v1, (valid, paths, oa, err)) := add_mft (Some f) m v in
          match oa with
          | None => VRet (v1, (valid, [], None, true))
          | Some a =>
              VRet (put_path (f_path f) a (upd a (with_file (Some f)) v1), (valid, paths, Some a, err))
          end
      end
  | TCrl =>
      match dec_crl data with
      | None => VRet (v, add_error)
      | Some l =>
          do! (v1, (valid, a)) := add_crl l v in
          do! want := grandparent_path f in
          do! have := parent_file_path v1 a in
          if beq want have
          then VRet (put_path (f_path f) a (upd a (with_file (Some f)) v1), (valid, [], Some a, false))
          else VRet (v1, add_error)
      end
  | _ => VRet (v, add_error)
  end.

(** The calls a program can make on a Validator. *)
Inductive op :=
| DoResource (f : pkifile) (data : bytes)
| DoTal (t : tal)
| DoCert (c : cert) (trust : bool)
| DoRoa (f : option pkifile) (r : roa)
| DoMft (f : option pkifile) (m : mft)
| DoCrl (l : crl)
| DoInvalidate (k : bytes).

Definition vfst {A B} (x : vres (A * B)) : vres A := do! (a, _) := x in VRet a.
Definition step (o : op) (v : validator) : vres validator :=
  match o with
  | DoResource f d => vfst (add_resource f d v)
  | DoTal t => VRet (fst (add_tal t v))
  | DoCert c tr => vfst (add_cert c tr v)
  | DoRoa f r => vfst (add_roa f r v)
  | DoMft f m => vfst (add_mft f m v)
  | DoCrl l => vfst (add_crl l v)
  | DoInvalidate k => invalidate k v
  end.

Fixpoint run (l : list op) (v : validator) : vres validator :=
  match l with
  | [] => VRet v
  | o :: l' => do! v1 := step o v in run l' v1
  end.
End Oracles.
