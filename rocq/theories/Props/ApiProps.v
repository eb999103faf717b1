(** C92: the manager on top of the remote interface (sync/api/fetch.go). *)
From Coq Require Import String.
From Verif.Model Require Import Base NetIP CertRes Roa Str Ber Tal Validator Explore Repo Api.
From Verif.Spec Require Import Trust Discovery RepoSpec ApiSpec.
From Verif.Proofs Require Import ValidatorWitness ExploreWitness ApiProofs ApiWitness.

Section Props.
Variable sig_ok : cert -> cert -> bool.
Variable crl_sig_ok : cert -> crl -> bool.
Variable dec_tal : bytes -> option tal.
Variable dec_cert : bytes -> option cert.
Variable dec_roa : bytes -> option roa.
Variable dec_mft : bytes -> option mft.
Variable dec_crl : bytes -> option crl.
Variable hex_sha1 : bytes -> bytes.
Variable read_file : bytes -> option bytes.
Variable get_resource : bytes -> option bytes.
Variable get_repository : bytes -> option stream.
Variable clock : nat -> Z * Z.
Variable strict_manifests : bool.
Variable strict_hash : bool.
Variable add_invalid : bool.
Variable not_mft : bool.
Variable init : list fdesc.
Notation run := (run sig_ok crl_sig_ok dec_tal dec_cert dec_roa dec_mft dec_crl hex_sha1).
Notation disk := (served init read_file get_resource).
Notation api_iter := (api_iter sig_ok crl_sig_ok dec_tal dec_cert dec_roa dec_mft dec_crl hex_sha1 read_file get_resource get_repository clock strict_manifests strict_hash add_invalid).
Notation api_explore := (api_explore sig_ok crl_sig_ok dec_tal dec_cert dec_roa dec_mft dec_crl hex_sha1 read_file get_resource get_repository clock strict_manifests strict_hash add_invalid).
Notation tal_anchor := (tal_anchor dec_tal dec_cert hex_sha1 disk).

(** Exploration by manifests over the remote interface is exploration of the
    cache it amounts to, with no check of digests: all that is proved of the
    latter without the strict setting holds of it. *)
Theorem C92_same_as_cache : forall sha256 fuel now,
  api_explore false fuel (init_mgr now init) =
  explore sig_ok crl_sig_ok dec_tal dec_cert dec_roa dec_mft dec_crl hex_sha1 disk (fun _ => true) sha256 clock strict_manifests false add_invalid fuel (init_mgr now init).
Proof. exact (api_same sig_ok crl_sig_ok dec_tal dec_cert dec_roa dec_mft dec_crl hex_sha1 read_file get_resource get_repository clock strict_manifests strict_hash add_invalid init). Qed.

(** A finished run is a sequence of files taken from the queue. *)
Theorem C92_run_is_sequence : forall fuel s s' n, api_explore not_mft fuel s = VRet (s', n) ->
  exists l, explores (api_iter not_mft) s l s' /\ length l = n /\ m_queue s' = [].
Proof. exact (api_sequence sig_ok crl_sig_ok dec_tal dec_cert dec_roa dec_mft dec_crl hex_sha1 read_file get_resource get_repository clock strict_manifests strict_hash add_invalid not_mft). Qed.

(** What the validator is given are files taken from the queue and resources of
    the repositories of manifest files taken from it. *)
Theorem C92_only_these_files : forall now P s, explores (api_iter not_mft) (init_mgr now init) P s ->
  (forall x, In x init -> fd_trust x = false) ->
  exists ops, run ops (new_validator now) = VRet (m_v s) /\
    forall o, In o ops -> match o with
      | DoResource f d => received disk get_repository P f d
      | DoInvalidate _ => True
      | _ => False
      end.
Proof. exact (api_run sig_ok crl_sig_ok dec_tal dec_cert dec_roa dec_mft dec_crl hex_sha1 read_file get_resource get_repository clock strict_manifests strict_hash add_invalid not_mft init (fun x => x)). Qed.

(** Whatever the remote side answers, every valid certificate, and the
    certificate of every valid ROA, has a chain of valid issuers to a
    certificate named by a trust anchor locator and carrying its key. *)
Theorem C92_chain_to_tal : forall now P s, explores (api_iter not_mft) (init_mgr now init) P s ->
  (forall x, In x init -> fd_trust x = false) ->
  (forall c, valid_cert (m_v s) c -> chain_to sig_ok (tal_anchor P) (m_v s) c) /\
  (forall x, valid_roa (m_v s) x -> chain_to sig_ok (tal_anchor P) (m_v s) (roa_cert x)).
Proof. exact (api_chain sig_ok crl_sig_ok dec_tal dec_cert dec_roa dec_mft dec_crl hex_sha1 read_file get_resource get_repository clock strict_manifests strict_hash add_invalid not_mft init (fun x => x)). Qed.

(** A repository that was not asked for yet and that is answered is given to
    the validator resource by resource, each once and in order, typed by its
    ending; otherwise there is an error and nothing is given. *)
Theorem C92_stream_given : forall p s s' err,
  api_next_repository sig_ok crl_sig_ok dec_tal dec_cert dec_roa dec_mft dec_crl hex_sha1 get_repository p s = VRet (s', err) ->
  match get_repository (fd_repo (f_desc p)) with
  | Some r =>
      if kin (m_explored s) (fd_repo (f_desc p)) then err = true /\ s' = s
      else err = false /\
        exists gs, Forall2 (fun x g => stands_for p (fst g) (fst x) /\ converted (snd x) (snd g)) (st_list r) gs /\
          run (map (fun g => DoResource (fst g) (snd g)) gs) (m_v s) = VRet (m_v s')
  | None => err = true /\ s' = s
  end.
Proof. exact (next_repository sig_ok crl_sig_ok dec_tal dec_cert dec_roa dec_mft dec_crl hex_sha1 get_repository). Qed.

(** Where the remote side has finitely many resources and repositories, the run
    ends. *)
Theorem C92_terminates : forall keys repos,
  (forall k raw, disk k = Some raw -> bytes_ok raw = true) ->
  (forall k r x, get_repository k = Some r -> In x (st_list r) -> bytes_ok (snd x) = true) ->
  (forall k, disk k <> None -> In k keys) -> (forall k, get_repository k <> None -> In k repos) ->
  forall now fuel, (forall x, In x init -> fd_trust x = false) ->
  (length init + list_sum (map (found_bound dec_cert dec_mft disk) keys) +
     list_sum (map (stream_bound dec_cert dec_mft get_repository) repos) <= fuel)%nat ->
  api_explore not_mft fuel (init_mgr now init) <> VFuel.
Proof. exact (api_total sig_ok crl_sig_ok dec_tal dec_cert dec_roa dec_mft dec_crl hex_sha1 read_file get_resource get_repository clock strict_manifests strict_hash add_invalid not_mft init (fun x => x)). Qed.

(** The setting for digests and the clock make no difference, ever. *)
Theorem C92_strict_refuted : forall clock' strict_hash' fuel s,
  api_explore not_mft fuel s =
  Api.api_explore sig_ok crl_sig_ok dec_tal dec_cert dec_roa dec_mft dec_crl hex_sha1 read_file get_resource get_repository clock' strict_manifests strict_hash' add_invalid not_mft fuel s.
Proof. intros. apply strict_ignored. Qed.
End Props.

(** So with the strict settings a ROA is valid although the manifest lists
    another digest for it (digests are the contents themselves here). *)
Theorem C92_digest_refuted : exists s n,
  w_explore (blob 22) 100 false false = VRet (s, n) /\ m_queue s = [] /\ valid_roa (m_v s) x_roa /\
  w_resource (str "rsync://r/a/o.roa") = Some (blob 21) /\ r_roa (blob 21) = Some x_roa /\
  w_resource (str "rsync://r/a/a.mft") = Some (blob 20) /\ r_mft (blob 22) 100 (blob 20) = Some (r_a_mft (blob 22) 100) /\
  In (str "o.roa", blob 22) (mft_files (r_a_mft (blob 22) 100)).
Proof. exact other_digest. Qed.

(** And it is valid although the manifest expired at 49 and it is 50. *)
Theorem C92_expired_refuted : exists s n,
  w_explore (blob 21) 49 false false = VRet (s, n) /\ m_queue s = [] /\ valid_roa (m_v s) x_roa /\
  w_resource (str "rsync://r/a/a.mft") = Some (blob 20) /\ r_mft (blob 21) 49 (blob 20) = Some (r_a_mft (blob 21) 49) /\
  mft_next (r_a_mft (blob 21) 49) = 49.
Proof. exact expired. Qed.

(** A stream that breaks is taken for a complete one. *)
Theorem C92_broken_refuted : exists f s s' r,
  api_next_repository sig_all crl_all r_tal (r_cert []) r_roa (r_mft (blob 21) 100) (no_dec _) (fun x => x) (w_stream true) f s = VRet (s', false) /\
  w_stream true (fd_repo (f_desc f)) = Some r /\ st_broken r = true.
Proof. exact broken_stream. Qed.

Print Assumptions C92_same_as_cache.
Print Assumptions C92_run_is_sequence.
Print Assumptions C92_only_these_files.
Print Assumptions C92_chain_to_tal.
Print Assumptions C92_stream_given.
Print Assumptions C92_terminates.
Print Assumptions C92_strict_refuted.
Print Assumptions C92_digest_refuted.
Print Assumptions C92_expired_refuted.
Print Assumptions C92_broken_refuted.

(** By manifests; by repositories; by repositories with a broken stream: number
    of files, validity of R, A, B and the ROA. *)
Example C92_example :
  w_show (blob 21) 100 false false = Some (8%nat, [true; true; true; true]) /\
  w_show (blob 21) 100 true false = Some (5%nat, [true; true; true; true]) /\
  w_show (blob 21) 100 true true = Some (5%nat, [true; true; true; false]).
Proof. vm_compute. auto. Qed.
(** The settings hold for the cache: the same files read from the disk. *)
Example C92_cache_example : r_show [] (blob 22) 100 = Some (8%nat, [true; false; true; false]) /\
  w_show (blob 22) 100 false false = Some (8%nat, [true; true; true; true]).
Proof. vm_compute. auto. Qed.
