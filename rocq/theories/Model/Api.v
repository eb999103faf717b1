(** The manager on top of the remote interface: sync/api/fetch.go, with
    validator/pki/pki.go:151-188, 815-921. *)
From Verif.Model Require Import Base Str Ber Tal Validator Explore Repo.

(** The answer to a GetRepository call: the resources received, path and data,
    before Recv first returned nil or an error (fetch.go:67-68, 95), and
    whether that error was another one than the end of the stream. *)
Record stream := mkStream {
  st_list : list (bytes * bytes);
  st_broken : bool }.

Section Oracles.
Variable sig_ok : cert -> cert -> bool.
Variable crl_sig_ok : cert -> crl -> bool.
Variable dec_tal : bytes -> option tal.
Variable dec_cert : bytes -> option cert.
Variable dec_roa : bytes -> option roa.
Variable dec_mft : bytes -> option mft.
Variable dec_crl : bytes -> option crl.
Variable hex_sha1 : bytes -> bytes.
(** ioutil.ReadFile, for the trust anchor locators (fetch.go:35). *)
Variable read_file : bytes -> option bytes.
(** Client.GetResource and Client.GetRepository (fetch.go:19, 60); [None] is an
    error. *)
Variable get_resource : bytes -> option bytes.
Variable get_repository : bytes -> option stream.
Variable clock : nat -> Z * Z.
Variable strict_manifests : bool.
Variable strict_hash : bool.
Variable add_invalid : bool.
(** The first argument of Explore. *)
Variable not_mft : bool.

Notation add := (explore_add sig_ok crl_sig_ok dec_tal dec_cert dec_roa dec_mft dec_crl hex_sha1).

(** A SeekFile without error: the data and SeekFile.Sha256, which may be nil. *)
Definition answer := option (bytes * option bytes).

(** fetch.go:18-31 FetchFile; the data that goes with an error is dropped by
    the caller. *)
Definition fetch_file (path : bytes) : vres (option bytes) :=
  match get_resource path with
  | None => VRet None
  | Some raw =>
      match ber2der raw with
      | BOk d => VRet (Some d)
      | BErr => VRet None
      | BPanic => VPanic
      | BFuel => VFuel
      end
  end.

(** fetch.go:33-57 GetFile: the SeekFile has no Sha256. *)
Definition api_get_file (f : pkifile) : vres answer :=
  if is_tal (f_type f) then
    VRet (match read_file (f_path f) with Some d => Some (d, None) | None => None end)
  else
    do! r := fetch_file (compute_path f) in
    VRet (match r with Some d => Some (d, None) | None => None end).

(** pki.go:160-174 GetNextFile *)
Definition api_next_file (f : pkifile) (s : mgr) : vres answer :=
  if kin (m_explored s) (compute_path f) then VRet None else api_get_file f.

(** pki.go:864-910: the body of Explore for one file; 867 makes no check
    without a digest. *)
Definition api_explore_file (f : pkifile) (s : mgr) : vres mgr :=
  do! r := api_next_file f s in
  match r with
  | None => explore_bad strict_manifests true f s
  | Some (d, sha) =>
      do! (s1, ok) := (match sha with
                       | Some x => check_listed clock strict_hash f x s
                       | None => VRet (s, true)
                       end) in
      if ok : bool then add add_invalid f d s1 else explore_bad strict_manifests true f s1
  end.

(** fetch.go:84-90: the file handed to the callback. *)
Definition stream_file (f : pkifile) (n : nat) (path : bytes) : pkifile :=
  PFile n (mkFile (fd_repo (f_desc f)) path (type_of_name path) false None) (Some f).

(** fetch.go:68-96: the loop over the stream; a failed conversion leaves the
    data nil (82). *)
Fixpoint stream_loop (f : pkifile) (l : list (bytes * bytes)) (s : mgr) : vres mgr :=
  match l with
  | [] => VRet s
  | (path, raw) :: l' =>
      do! d := (match ber2der raw with
                | BOk d => VRet d
                | BErr => VRet []
                | BPanic => VPanic
                | BFuel => VFuel
                end) in
      do! s1 := add false (stream_file f (m_next s) path) d
                  (mkM (m_v s) (m_queue s) (m_explored s) (m_unique s) (m_rop s) (S (m_next s)) (m_tick s)) in
      stream_loop f l' s1
  end.

(** fetch.go:59-98 GetRepository through pki.go:178-188 GetNextRepository: the
    state and whether there is an error. *)
Definition api_next_repository (f : pkifile) (s : mgr) : vres (mgr * bool) :=
  if kin (m_explored s) (fd_repo (f_desc f)) then VRet (s, true)
  else match get_repository (fd_repo (f_desc f)) with
       | None => VRet (s, true)
       | Some r => do! s1 := stream_loop f (st_list r) s in VRet (s1, false)
       end.

(** pki.go:911-917; the error is only reported. *)
Definition api_explore_repository (f : pkifile) (s : mgr) : vres mgr :=
  do! (s1, _) := api_next_repository f s in
  VRet (mkM (m_v s1) (m_queue s1) (kset (m_explored s1) (fd_repo (f_desc f)) true) (m_unique s1)
            (m_rop s1) (m_next s1) (m_tick s1)).

(** pki.go:853-919: one iteration of Explore. *)
Definition api_iter (s : mgr) : vres mgr :=
  match m_queue s with
  | [] => VRet s
  | f :: q =>
      let s1 := mkM (m_v s) q (m_explored s) (m_unique s) (m_rop s) (m_next s) (S (m_tick s)) in
      if negb not_mft || negb (is_mft (f_type f)) then api_explore_file f s1 else api_explore_repository f s1
  end.

(** pki.go:850-921 *)
Fixpoint api_explore (fuel : nat) (s : mgr) : vres (mgr * nat) :=
  match m_queue s with
  | [] => VRet (s, O)
  | _ :: _ =>
      match fuel with
      | O => VFuel
      | S fuel' =>
          do! s1 := api_iter s in
          do! (s2, n) := api_explore fuel' s1 in
          VRet (s2, S n)
      end
  end.
End Oracles.
