(** C80: the repository mode of the manager (option -manifest.use=false). *)
From Coq Require Import String.
From Verif.Model Require Import Base NetIP CertRes Roa Str Ber Tal Validator Explore Repo.
From Verif.Spec Require Import Trust Discovery RepoSpec.
From Verif.Proofs Require Import ValidatorWitness ExploreWitness RepoProofs RepoWitness.

Section Props.
Variable sig_ok : cert -> cert -> bool.
Variable crl_sig_ok : cert -> crl -> bool.
Variable dec_tal : bytes -> option tal.
Variable dec_cert : bytes -> option cert.
Variable dec_roa : bytes -> option roa.
Variable dec_mft : bytes -> option mft.
Variable dec_crl : bytes -> option crl.
Variable hex_sha1 : bytes -> bytes.
Variable disk : bytes -> option bytes.
Variable synced : bytes -> bool.
Variable sha256 : bytes -> bytes.
Variable clock : nat -> Z * Z.
Variable strict_manifests : bool.
Variable strict_hash : bool.
Variable add_invalid : bool.
Variable read_dir : bytes -> option (list dirent).
Variable init : list fdesc.
Notation run := (run sig_ok crl_sig_ok dec_tal dec_cert dec_roa dec_mft dec_crl hex_sha1).
Notation repo_iter := (repo_iter sig_ok crl_sig_ok dec_tal dec_cert dec_roa dec_mft dec_crl hex_sha1 disk synced sha256 clock strict_manifests strict_hash add_invalid read_dir).
Notation repo_explore := (repo_explore sig_ok crl_sig_ok dec_tal dec_cert dec_roa dec_mft dec_crl hex_sha1 disk synced sha256 clock strict_manifests strict_hash add_invalid read_dir).
Notation tal_anchor := (tal_anchor dec_tal dec_cert hex_sha1 disk).

(** A finished run is a sequence of files taken from the queue. *)
Theorem C80_run_is_sequence : forall fuel s s' n, repo_explore fuel s = VRet (s', n) ->
  exists l, explores repo_iter s l s' /\ length l = n /\ m_queue s' = [].
Proof. exact (repo_sequence sig_ok crl_sig_ok dec_tal dec_cert dec_roa dec_mft dec_crl hex_sha1 disk synced sha256 clock strict_manifests strict_hash add_invalid read_dir). Qed.

(** What the validator is given are files taken from the queue and regular
    files of directories named by manifest files taken from it. *)
Theorem C80_only_these_files : forall now P s, explores repo_iter (init_mgr now init) P s ->
  (forall x, In x init -> fd_trust x = false) ->
  exists ops, run ops (new_validator now) = VRet (m_v s) /\
    forall o, In o ops -> match o with
      | DoResource f d => handed disk read_dir P f d
      | DoInvalidate _ => True
      | _ => False
      end.
Proof. exact (repo_run sig_ok crl_sig_ok dec_tal dec_cert dec_roa dec_mft dec_crl hex_sha1 disk synced sha256 clock strict_manifests strict_hash add_invalid read_dir init). Qed.

(** Every valid certificate, and the certificate of every valid ROA, has a
    chain of valid issuers to a certificate named by a trust anchor locator
    and carrying its key. *)
Theorem C80_chain_to_tal : forall now P s, explores repo_iter (init_mgr now init) P s ->
  (forall x, In x init -> fd_trust x = false) ->
  (forall c, valid_cert (m_v s) c -> chain_to sig_ok (tal_anchor P) (m_v s) c) /\
  (forall x, valid_roa (m_v s) x -> chain_to sig_ok (tal_anchor P) (m_v s) (roa_cert x)).
Proof. exact (repo_chain sig_ok crl_sig_ok dec_tal dec_cert dec_roa dec_mft dec_crl hex_sha1 disk synced sha256 clock strict_manifests strict_hash add_invalid read_dir init). Qed.

(** With finitely many files and directories, the run ends. *)
Theorem C80_terminates : forall keys dirs,
  (forall k raw, disk k = Some raw -> bytes_ok raw = true) ->
  (forall r l e raw, read_dir r = Some l -> In e l -> de_data e = Some raw -> bytes_ok raw = true) ->
  (forall k, disk k <> None -> In k keys) -> (forall r, read_dir r <> None -> In r dirs) ->
  forall now fuel, (forall x, In x init -> fd_trust x = false) ->
  (length init + list_sum (map (found_bound dec_cert dec_mft disk) keys) + list_sum (map (dir_bound read_dir dec_cert dec_mft) dirs) <= fuel)%nat ->
  repo_explore fuel (init_mgr now init) <> VFuel.
Proof. exact (repo_total sig_ok crl_sig_ok dec_tal dec_cert dec_roa dec_mft dec_crl hex_sha1 disk synced sha256 clock strict_manifests strict_hash add_invalid read_dir init). Qed.

(** The directory that is read has the name of the address itself, not of its
    local copy. Where the addresses in certificates are not names of local
    directories, no ROA is ever found, whatever the cache holds, and the valid
    certificates are those named by locators. *)
Theorem C80_roas_found_refuted :
  (forall k raw d c x, disk k = Some raw -> ber2der raw = BOk d -> dec_cert d = Some c ->
     In x (extract_path_cert c) -> read_dir (fd_repo x) = None) ->
  (forall x, In x init -> fd_type x = TTal /\ fd_trust x = false) ->
  forall now P s, explores repo_iter (init_mgr now init) P s ->
  (forall x, ~ valid_roa (m_v s) x) /\
  (forall c, valid_cert (m_v s) c ->
     exists f p, In f P /\ f_type f = TCer /\ f_parent f = Some p /\ f_type p = TTal /\ contents disk dec_cert f c).
Proof. exact (nothing_found sig_ok crl_sig_ok dec_tal dec_cert dec_roa dec_mft dec_crl hex_sha1 disk synced sha256 clock strict_manifests strict_hash add_invalid read_dir init). Qed.
End Props.

(** Even where the directories are there, and with the strict settings, a ROA
    stays valid although the accepted manifest lists another digest for it
    (digests are the contents themselves here). *)
Theorem C80_digest_refuted : exists s n p,
  d_explore d_local (blob 22) 20 = VRet (s, n) /\ m_queue s = [] /\ valid_roa (m_v s) x_roa /\
  r_disk (str "rsync://r/a/o.roa") = Some (blob 21) /\ r_roa (blob 21) = Some x_roa /\
  f_path p = str "rsync://r/a/a.mft" /\ r_disk (f_path p) = Some (blob 20) /\
  r_mft (blob 22) 100 (blob 20) = Some (r_a_mft (blob 22) 100) /\
  In (str "o.roa", blob 22) (mft_files (r_a_mft (blob 22) 100)) /\
  v_validmft (m_v s) (c_ski (mft_cert (r_a_mft (blob 22) 100))) <> None.
Proof. exact digest_ignored. Qed.

Print Assumptions C80_run_is_sequence.
Print Assumptions C80_only_these_files.
Print Assumptions C80_chain_to_tal.
Print Assumptions C80_terminates.
Print Assumptions C80_roas_found_refuted.
Print Assumptions C80_digest_refuted.

(** The same cache in the usual mode, in repository mode with directories of
    these names, and without: number of files, validity of R, A, B and the ROA. *)
Example C80_example : d_usual (blob 21) = Some (8%nat, [true; true; true; true]) /\
  d_show d_local (blob 21) = Some (8%nat, [true; true; true; true]) /\
  d_show d_none (blob 21) = Some (3%nat, [true; false; false; false]).
Proof. vm_compute. auto. Qed.
Example C80_digest_example : d_usual (blob 22) = Some (8%nat, [true; false; true; false]) /\
  d_show d_local (blob 22) = Some (8%nat, [true; true; true; true]).
Proof. vm_compute. auto. Qed.
