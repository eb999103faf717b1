(** The manager: validator/pki/pki.go:131-174, 768-921, with the local file
    reader of sync/lib/fetch.go:54-117.

    Not modelled here: the repository mode ([Explore(notMFT = true)],
    GetNextRepository; see Repo.v and Api.v), the error reports (see
    ErrReport.v), PathOfResource (never read by the code modelled) and log
    output ([Log] is not nil). *)
From Verif.Model Require Import Base Str Ber Tal Validator.

(** pki.go:86-101 SimpleManager.  ResourceOfPath has pointers to PKIFile as
    keys, here their identity; [m_next] is the next unused identity (files that
    are dropped at once get none), [m_tick] counts the iterations of Explore. *)
Record mgr := mkM {
  m_v : validator;
  m_queue : list pkifile;
  m_explored : kmap bool;
  m_unique : kmap bool;
  m_rop : nat -> option addr;
  m_next : nat;
  m_tick : nat }.

(** pki.go:131-145 PutFiles *)
Fixpoint put_files (l : list pkifile) (s : mgr) : mgr :=
  match l with
  | [] => s
  | f :: l' =>
      let path := compute_path f in
      if kin (m_explored s) path || kin (m_unique s) path then put_files l' s
      else put_files l' (mkM (m_v s) (m_queue s ++ [f]) (m_explored s) (kset (m_unique s) path true)
                             (m_rop s) (m_next s) (m_tick s))
  end.

(** Allocation of the PKIFile structs with their Parent (pki.go:837-839). *)
Fixpoint number_files (n : nat) (parent : option pkifile) (l : list fdesc) : list pkifile :=
  match l with
  | [] => []
  | d :: l' => PFile n d parent :: number_files (S n) parent l'
  end.

(** pki.go:103-113 NewSimpleManager with a new Validator, and AddInitial
    (768-770) of files without parent. *)
Definition init_mgr (now : Z) (l : list fdesc) : mgr :=
  put_files (number_files O None l)
    (mkM (new_validator now) [] kempty kempty (fun _ => None) (length l) O).

Definition set_v (v : validator) (s : mgr) : mgr :=
  mkM v (m_queue s) (m_explored s) (m_unique s) (m_rop s) (m_next s) (m_tick s).

Section Oracles.
Variable sig_ok : cert -> cert -> bool.
Variable crl_sig_ok : cert -> crl -> bool.
Variable dec_tal : bytes -> option tal.
Variable dec_cert : bytes -> option cert.
Variable dec_roa : bytes -> option roa.
Variable dec_mft : bytes -> option mft.
Variable dec_crl : bytes -> option crl.
Variable hex_sha1 : bytes -> bytes.
(** The cache: contents of the file that stores the given URI. *)
Variable disk : bytes -> option bytes.
(** fetch.go:101-106: the repository of this path has been synchronised. *)
Variable synced : bytes -> bool.
Variable sha256 : bytes -> bytes.
(** time.Now() at each iteration (pki.go:874 calls it twice). *)
Variable clock : nat -> Z * Z.
(** pki.go:99-100 and the second argument of Explore. *)
Variable strict_manifests : bool.
Variable strict_hash : bool.
Variable add_invalid : bool.

Notation add_resource := (add_resource sig_ok crl_sig_ok dec_tal dec_cert dec_roa dec_mft dec_crl hex_sha1).

(** Result of GetFile: an error, nothing, or the data with its digest. *)
Inductive seek := SErr | SNone | SData (data sha : bytes).

(** fetch.go:54-73 FetchFile, 87-117 GetFile.  An absent file and a failed
    conversion are both errors; [os.IsNotExist] never recognises the wrapped
    error. *)
Definition get_file (f : pkifile) : vres seek :=
  let fail := VRet (if synced (f_path f) then SErr else SNone) in
  match disk (compute_path f) with
  | None => fail
  | Some raw =>
      if is_tal (f_type f) then VRet (SData raw (sha256 raw))
      else match ber2der raw with
           | BOk d => VRet (SData d (sha256 raw))
           | BErr => fail
           | BPanic => VPanic
           | BFuel => VFuel
           end
  end.

(** pki.go:160-174 GetNextFile *)
Definition get_next_file (f : pkifile) (s : mgr) : vres seek :=
  if kin (m_explored s) (compute_path f) then VRet SErr else get_file f.

(** pki.go:773-792 InvalidateManifestParent *)
Definition inval_mft_parent (f : pkifile) (s : mgr) : vres mgr :=
  match f_parent f with
  | Some p =>
      if is_mft (f_type p) then
        match f_parent p with
        | Some g =>
            if is_cer (f_type g) then
              match m_rop s (f_id g) with
              | Some a =>
                  do! r := deref (v_heap (m_v s)) a in
                  match r_obj r with
                  | OCert c => do! v := invalidate (c_ski c) (m_v s) in VRet (set_v v s)
                  | _ => VRet s
                  end
              | None => VRet s
              end
            else VRet s
        | None => VRet s
        end
      else VRet s
  | None => VRet s
  end.

(** pki.go:794-813 InvalidateCRLParent *)
Definition inval_crl_parent (f : pkifile) (s : mgr) : vres mgr :=
  match f_parent f with
  | Some p =>
      if is_crl (f_type p) then
        match f_parent p with
        | Some g =>
            if is_cer (f_type g) then
              match v_path (m_v s) (f_path g) with
              | Some a =>
                  do! r := deref (v_heap (m_v s)) a in
                  match r_obj r with
                  | OCert c => do! v := invalidate (c_ski c) (m_v s) in VRet (set_v v s)
                  | _ => VRet s
                  end
              | None => VRet s
              end
            else VRet s
        | None => VRet s
        end
      else VRet s
  | None => VRet s
  end.

(** pki.go:815-845 ExploreAdd *)
Definition explore_add (f : pkifile) (data : bytes) (s : mgr) : vres mgr :=
  do! (v, (valid, subs, oa, _)) := add_resource f data (m_v s) in
  let s1 := mkM v (m_queue s) (kset (m_explored s) (compute_path f) true) (m_unique s)
                (m_rop s) (m_next s) (m_tick s) in
  if add_invalid || valid then
    let s2 := put_files (number_files (m_next s) (Some f) subs) s1 in
    VRet (mkM (m_v s2) (m_queue s2) (m_explored s2) (m_unique s2)
              (fun i => if Nat.eqb i (f_id f) then oa else m_rop s2 i) (m_next s2 + length subs) (m_tick s2))
  else VRet s1.

(** pki.go:874 *)
Definition mft_stale (t : Z * Z) (m : mft) : bool := (mft_next m <? fst t) || (snd t <? mft_this m).

(** pki.go:869-883: is the manifest that lists the file out of date? *)
Definition listed_stale (f : pkifile) (s : mgr) : vres bool :=
  match f_parent f with
  | Some p =>
      if is_mft (f_type p) then
        match m_rop s (f_id p) with
        | Some a =>
            do! r := deref (v_heap (m_v s)) a in
            match r_obj r with
            | OMft m => VRet (mft_stale (clock (m_tick s)) m)
            | _ => VRet false
            end
        | None => VRet false
        end
      else VRet false
  | None => VRet false
  end.

(** pki.go:867-889: the checks made before a file is used; the result is the
    state and whether the digest is right.  SeekFile.Sha256 is nil only in the
    error results of GetFile. *)
Definition check_listed (f : pkifile) (sha : bytes) (s : mgr) : vres (mgr * bool) :=
  match fd_hash (f_desc f) with
  | Some h =>
      if strict_hash then
        do! stale := listed_stale f s in
        do! s1 := (if stale : bool then inval_mft_parent f s else VRet s) in
        VRet (s1, beq sha h)
      else VRet (s, true)
  | None => VRet (s, true)
  end.

(** pki.go:891-903: a file that is absent, unreadable or has a wrong digest. *)
Definition explore_bad (err : bool) (f : pkifile) (s : mgr) : vres mgr :=
  do! s1 := (if strict_manifests then inval_mft_parent f s else VRet s) in
  if err then inval_crl_parent f s1 else VRet s1.

(** pki.go:864-910: the body of Explore for one file. *)
Definition explore_file (f : pkifile) (s : mgr) : vres mgr :=
  do! r := get_next_file f s in
  match r with
  | SErr => explore_bad true f s
  | SNone => explore_bad false f s
  | SData d sha =>
      do! (s1, ok) := check_listed f sha s in
      if ok : bool then explore_add f d s1 else explore_bad true f s1
  end.

(** pki.go:151-158 GetNextExplore and one iteration of Explore, 853-919. *)
Definition explore_iter (s : mgr) : vres mgr :=
  match m_queue s with
  | [] => VRet s
  | f :: q =>
      explore_file f (mkM (m_v s) q (m_explored s) (m_unique s) (m_rop s) (m_next s) (S (m_tick s)))
  end.

(** pki.go:850-921 Explore; the result counts the files. *)
Fixpoint explore (fuel : nat) (s : mgr) : vres (mgr * nat) :=
  match m_queue s with
  | [] => VRet (s, O)
  | _ :: _ =>
      match fuel with
      | O => VFuel
      | S fuel' =>
          do! s1 := explore_iter s in
          do! (s2, n) := explore fuel' s1 in
          VRet (s2, S n)
      end
  end.
End Oracles.
