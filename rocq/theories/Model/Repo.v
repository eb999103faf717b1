(** The repository mode of the manager: validator/pki/pki.go:178-188, 815-845,
    864, 911-917 (Explore with notMFT = true, option -manifest.use=false), with
    sync/lib/fetch.go:119-165. *)
From Verif.Model Require Import Base Str Ber Tal Validator Explore.

(** An element of ioutil.ReadDir with what is in the file that
    fetch.go:131 reads for it, at the local path of the repository followed by
    the name. *)
Record dirent := mkDirent {
  de_name : bytes;
  de_dir : bool;
  de_data : option bytes }.

(** strings.Split(s, ".")[len-1] *)
Fixpoint after_dot (acc l : bytes) : bytes :=
  match l with
  | [] => acc
  | c :: l' => if c =? 46 then after_dot l' l' else after_dot acc l'
  end.

(** fetch.go:136-150 *)
Definition type_of_name (name : bytes) : ftype :=
  let x := after_dot name name in
  if beq x [99; 114; 108] then TCrl
  else if beq x [99; 101; 114] then TCer
  else if beq x [109; 102; 116] then TMft
  else if beq x [114; 111; 97] then TRoa
  else TUnknown.

Section Oracles.
Variable sig_ok : cert -> cert -> bool.
Variable crl_sig_ok : cert -> crl -> bool.
Variable dec_tal : bytes -> option tal.
Variable dec_cert : bytes -> option cert.
Variable dec_roa : bytes -> option roa.
Variable dec_mft : bytes -> option mft.
Variable dec_crl : bytes -> option crl.
Variable hex_sha1 : bytes -> bytes.
Variable disk : bytes -> option bytes.
Variable synced : bytes -> bool.
Variable sha256 : bytes -> bytes.
Variable clock : nat -> Z * Z.
Variable strict_manifests : bool.
Variable strict_hash : bool.
Variable add_invalid : bool.
(** ioutil.ReadDir of the text of PKIFile.Repo (fetch.go:121); [None] is an
    error. *)
Variable read_dir : bytes -> option (list dirent).

Notation explore_file := (explore_file sig_ok crl_sig_ok dec_tal dec_cert dec_roa dec_mft dec_crl hex_sha1 disk synced sha256 clock strict_manifests strict_hash add_invalid).
Notation explore_add := (explore_add sig_ok crl_sig_ok dec_tal dec_cert dec_roa dec_mft dec_crl hex_sha1 false).

(** fetch.go:152-158: the file handed to the callback. *)
Definition dir_file (f : pkifile) (n : nat) (name : bytes) : pkifile :=
  PFile n (mkFile (fd_repo (f_desc f)) (fd_repo (f_desc f) ++ name) (type_of_name name) false None) (Some f).

(** fetch.go:126-164: the loop over the directory; an unreadable file ends it. *)
Fixpoint dir_loop (f : pkifile) (l : list dirent) (s : mgr) : vres mgr :=
  match l with
  | [] => VRet s
  | e :: l' =>
      if de_dir e then dir_loop f l' s
      else match de_data e with
           | None => VRet s
           | Some raw =>
               match ber2der raw with
               | BOk d =>
                   do! s1 := explore_add (dir_file f (m_next s) (de_name e)) d
                               (mkM (m_v s) (m_queue s) (m_explored s) (m_unique s) (m_rop s) (S (m_next s)) (m_tick s)) in
                   dir_loop f l' s1
               | BErr => VRet s
               | BPanic => VPanic
               | BFuel => VFuel
               end
           end
  end.

(** pki.go:178-188 GetNextRepository, 911-913 *)
Definition explore_repository (f : pkifile) (s : mgr) : vres mgr :=
  let repo := fd_repo (f_desc f) in
  do! s1 := (if kin (m_explored s) repo then VRet s
             else match read_dir repo with
                  | None => VRet s
                  | Some l => dir_loop f l s
                  end) in
  VRet (mkM (m_v s1) (m_queue s1) (kset (m_explored s1) repo true) (m_unique s1) (m_rop s1) (m_next s1) (m_tick s1)).

(** pki.go:853-919 with notMFT = true *)
Definition repo_iter (s : mgr) : vres mgr :=
  match m_queue s with
  | [] => VRet s
  | f :: q =>
      let s1 := mkM (m_v s) q (m_explored s) (m_unique s) (m_rop s) (m_next s) (S (m_tick s)) in
      if is_mft (f_type f) then explore_repository f s1 else explore_file f s1
  end.

(** pki.go:850-921 *)
Fixpoint repo_explore (fuel : nat) (s : mgr) : vres (mgr * nat) :=
  match m_queue s with
  | [] => VRet (s, O)
  | _ :: _ =>
      match fuel with
      | O => VFuel
      | S fuel' =>
          do! s1 := repo_iter s in
          do! (s2, n) := repo_explore fuel' s1 in
          VRet (s2, S n)
      end
  end.
End Oracles.
