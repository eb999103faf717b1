(** C10-C13, C54: exploration of the repositories; C01 and C07 end to end. *)
From Coq Require Import Lia String.
From Verif.Model Require Import Base NetIP CertRes Roa Str Ber Tal Validator Explore.
From Verif.Spec Require Import Trust Discovery.
From Verif.Proofs Require Import ValidatorWitness ExploreThm ExploreWitness.

Section Props.
Variable sig_ok : cert -> cert -> bool.
Variable crl_sig_ok : cert -> crl -> bool.
Variable dec_tal : bytes -> option tal.
Variable dec_cert : bytes -> option cert.
Variable dec_roa : bytes -> option roa.
Variable dec_mft : bytes -> option mft.
Variable dec_crl : bytes -> option crl.
Variable hex_sha1 : bytes -> bytes.
Variable disk : bytes -> option bytes.
Variable synced : bytes -> bool.
Variable sha256 : bytes -> bytes.
Variable clock : nat -> Z * Z.
Variable strict_manifests : bool.
Variable strict_hash : bool.
Variable add_invalid : bool.
Variable init : list fdesc.
Notation run := (run sig_ok crl_sig_ok dec_tal dec_cert dec_roa dec_mft dec_crl hex_sha1).
Notation explore := (explore sig_ok crl_sig_ok dec_tal dec_cert dec_roa dec_mft dec_crl hex_sha1 disk synced sha256 clock strict_manifests strict_hash add_invalid).
Notation explore_iter := (explore_iter sig_ok crl_sig_ok dec_tal dec_cert dec_roa dec_mft dec_crl hex_sha1 disk synced sha256 clock strict_manifests strict_hash add_invalid).
Notation tal_anchor := (tal_anchor dec_tal dec_cert hex_sha1 disk).
Notation found := (found_bound dec_cert dec_mft disk).

(** A finished exploration is a sequence of files taken from the queue. *)
Theorem C12_run_is_sequence : forall fuel s s' n, explore fuel s = VRet (s', n) ->
  exists l, explores explore_iter s l s' /\ length l = n /\ m_queue s' = [].
Proof. exact (explore_explores sig_ok crl_sig_ok dec_tal dec_cert dec_roa dec_mft dec_crl hex_sha1 disk synced sha256 clock strict_manifests strict_hash add_invalid). Qed.

(** C01, C07 end to end. Starting from files not marked as trusted, every valid
    certificate, and the certificate of every valid ROA, has a chain of valid
    issuers to a certificate read from the location in a trust anchor locator
    and carrying its key. *)
Theorem C01_explored_chain_to_tal : forall now P s, explores explore_iter (init_mgr now init) P s ->
  (forall x, In x init -> fd_trust x = false) ->
  (forall c, valid_cert (m_v s) c -> chain_to sig_ok (tal_anchor P) (m_v s) c) /\
  (forall x, valid_roa (m_v s) x -> chain_to sig_ok (tal_anchor P) (m_v s) (roa_cert x)).
Proof. exact (explored_chain sig_ok crl_sig_ok dec_tal dec_cert dec_roa dec_mft dec_crl hex_sha1 disk synced sha256 clock strict_manifests strict_hash add_invalid init). Qed.

(** C10. A listed file that is missing, unreadable or altered discards the CA
    that published the manifest and all that it issued. *)
Theorem C10_bad_entry_discards_ca : forall now P s f p g, explores explore_iter (init_mgr now init) P s ->
  (forall x, In x init -> fd_trust x = false) ->
  strict_manifests = true -> strict_hash = true -> In f P -> listed f p g -> ~ good_copy disk sha256 f ->
  exists c, contents disk dec_cert g c /\ v_valid (m_v s) (c_ski c) = None /\
    (forall c', valid_cert (m_v s) c' -> c_aki c' = c_ski c -> tal_anchor P c') /\
    (forall x, valid_roa (m_v s) x -> c_aki (roa_cert x) = c_ski c -> tal_anchor P (roa_cert x)).
Proof. exact (bad_entry_below sig_ok crl_sig_ok dec_tal dec_cert dec_roa dec_mft dec_crl hex_sha1 disk synced sha256 clock strict_manifests strict_hash add_invalid init). Qed.

(** When exploration is over, every entry of an accepted manifest of a valid CA
    has been looked at; if it was looked at as an entry of that manifest its
    file is there with the digest listed. *)
Theorem C10_valid_ca_manifest_complete_partial : forall now P s p g c m,
  explores explore_iter (init_mgr now init) P s -> m_queue s = [] ->
  strict_manifests = true -> strict_hash = true ->
  In p P -> registered s p -> f_type p = TMft -> f_parent p = Some g -> f_type g = TCer ->
  contents disk dec_cert g c -> contents disk dec_mft p m -> v_valid (m_v s) (c_ski c) <> None ->
  forall name h, In (name, h) (mft_files m) ->
  exists f, In f P /\ compute_path f = entry_uri (fd_repo (f_desc p)) name /\
    (f_parent f = Some p -> fd_hash (f_desc f) = Some h -> exists raw d, holds disk f raw d /\ sha256 raw = h).
Proof. exact (complete_manifest sig_ok crl_sig_ok dec_tal dec_cert dec_roa dec_mft dec_crl hex_sha1 disk synced sha256 clock strict_manifests strict_hash add_invalid init). Qed.

(** C11. When a file listed on a manifest is met at a time outside the update
    window of the manifest, its CA and all that it issued are not valid. *)
Theorem C11_stale_manifest_discards_ca : forall now P s i f p g, explores explore_iter (init_mgr now init) P s ->
  (forall x, In x init -> fd_trust x = false) ->
  strict_manifests = true -> strict_hash = true -> nth_error P i = Some f -> listed f p g ->
  exists c m, contents disk dec_cert g c /\ contents disk dec_mft p m /\
    (~ mft_current (clock (S i)) m ->
     v_valid (m_v s) (c_ski c) = None /\
     (forall c', valid_cert (m_v s) c' -> c_aki c' = c_ski c -> tal_anchor P c') /\
     (forall x, valid_roa (m_v s) x -> c_aki (roa_cert x) = c_ski c -> tal_anchor P (roa_cert x))).
Proof. exact (stale_below sig_ok crl_sig_ok dec_tal dec_cert dec_roa dec_mft dec_crl hex_sha1 disk synced sha256 clock strict_manifests strict_hash add_invalid init). Qed.

(** C12. No path is taken twice. *)
Theorem C12_paths_once : forall now P s, explores explore_iter (init_mgr now init) P s -> NoDup (map compute_path P).
Proof. exact (paths_once sig_ok crl_sig_ok dec_tal dec_cert dec_roa dec_mft dec_crl hex_sha1 disk synced sha256 clock strict_manifests strict_hash add_invalid init). Qed.

(** Nothing found through an accepted file is left out. *)
Theorem C12_all_found : forall now P s p raw d, explores explore_iter (init_mgr now init) P s -> m_queue s = [] ->
  In p P -> registered s p -> holds disk p raw d ->
  match f_type p with
  | TTal => exists t, dec_tal d = Some t /\ In (get_rsync_uri hex_sha1 t) (map compute_path P)
  | TCer => exists c, dec_cert d = Some c /\
      (add_invalid = false -> forall x, In x (extract_path_cert c) -> In (fd_path x) (map compute_path P))
  | TMft => exists m, dec_mft d = Some m /\
      forall name h, In (name, h) (mft_files m) -> In (entry_uri (fd_repo (f_desc p)) name) (map compute_path P)
  | _ => True
  end.
Proof. exact (all_found sig_ok crl_sig_ok dec_tal dec_cert dec_roa dec_mft dec_crl hex_sha1 disk synced sha256 clock strict_manifests strict_hash add_invalid init). Qed.

(** With a finite cache, exploration ends within the number of files that can
    be found at all. *)
Theorem C12_terminates : (forall k raw, disk k = Some raw -> bytes_ok raw = true) ->
  forall keys now fuel, (forall k, disk k <> None -> In k keys) ->
  (length init + list_sum (map found keys) <= fuel)%nat -> explore fuel (init_mgr now init) <> VFuel.
Proof. exact (explore_total sig_ok crl_sig_ok dec_tal dec_cert dec_roa dec_mft dec_crl hex_sha1 disk synced sha256 clock strict_manifests strict_hash add_invalid init). Qed.

(** C13. Whatever the validator was given came from a file that was looked at,
    with the digest listed for it. *)
Theorem C13_only_matching_files : forall now P s, explores explore_iter (init_mgr now init) P s ->
  exists ops, run ops (new_validator now) = VRet (m_v s) /\
    forall o, In o ops -> match o with
      | DoResource f d => In f P /\ exists raw, holds disk f raw d /\
          (strict_hash = true -> forall h, fd_hash (f_desc f) = Some h -> sha256 raw = h)
      | DoInvalidate _ => True
      | _ => False
      end.
Proof. exact (explored_run sig_ok crl_sig_ok dec_tal dec_cert dec_roa dec_mft dec_crl hex_sha1 disk synced sha256 clock strict_manifests strict_hash add_invalid init). Qed.
(** C54, what holds: when exploration is over an entry of an accepted manifest
    was looked at exactly once, as an entry of that manifest, unless its URI is
    one of the files exploration started from or is named by another accepted
    object. *)
Theorem C54_named_elsewhere_partial : forall now P s p m name h,
  explores explore_iter (init_mgr now init) P s -> m_queue s = [] ->
  In p P -> registered s p -> f_type p = TMft -> contents disk dec_mft p m -> In (name, h) (mft_files m) ->
  exists f, In f P /\ compute_path f = entry_uri (fd_repo (f_desc p)) name /\
    (forall f', In f' P -> compute_path f' = compute_path f -> f' = f) /\
    ((f_parent f = Some p /\ exists n' h', In (n', h') (mft_files m) /\ f_desc f = mkFile [] n' (determine_type n') false (Some h')) \/
     (f_parent f = None /\ In (f_desc f) init) \/
     exists q, f_parent f = Some q /\ q <> p /\ In q P /\ registered s q /\
       names dec_tal dec_cert dec_mft hex_sha1 disk q (f_desc f)).
Proof. exact (entry_named sig_ok crl_sig_ok dec_tal dec_cert dec_roa dec_mft dec_crl hex_sha1 disk synced sha256 clock strict_manifests strict_hash add_invalid init). Qed.
End Props.

Print Assumptions C12_run_is_sequence.
Print Assumptions C01_explored_chain_to_tal.
Print Assumptions C10_bad_entry_discards_ca.
Print Assumptions C10_valid_ca_manifest_complete_partial.
Print Assumptions C11_stale_manifest_discards_ca.
Print Assumptions C12_paths_once.
Print Assumptions C12_all_found.
Print Assumptions C12_terminates.
Print Assumptions C13_only_matching_files.

(** The examples use a locator, its anchor R with CAs A and B, and a ROA of A;
    shown are the number of files and the validity of R, A, B and the ROA. *)
Example C01_explored_example : r_show [] (blob 21) 100 = Some (8%nat, [true; true; true; true]).
Proof. vm_compute. reflexivity. Qed.
Example C13_example : map compute_path (fst (r_trace [] (blob 21) 100)) =
  map str ["t.tal"; "rsync://r/ta.cer"; "rsync://r/ta.mft"; "rsync://r/a.cer"; "rsync://r/b.cer"; "rsync://r/a/a.mft";
           "rsync://r/b/b.mft"; "rsync://r/a/o.roa"]%string.
Proof. vm_compute. reflexivity. Qed.

(** The ROA on disk is not the one on the manifest. *)
Example C10_example : r_show [] (blob 22) 100 = Some (8%nat, [true; false; true; false]) /\
  exists f p g, In f (fst (r_trace [] (blob 22) 100)) /\ listed f p g /\ fd_hash (f_desc f) = Some (blob 22) /\
    r_disk (compute_path f) = Some (blob 21).
Proof.
  split; [vm_compute; reflexivity|].
  exists (r_file [] (blob 22) 100 7), (r_file [] (blob 22) 100 5), (r_file [] (blob 22) 100 3).
  split; [apply nth_In; vm_compute; lia|]. vm_compute. auto 10.
Qed.

(** The manifest of A expired at 49, the clock shows 50. *)
Example C11_example : r_show [] (blob 21) 49 = Some (8%nat, [true; false; true; false]).
Proof. vm_compute. reflexivity. Qed.

(** The bound of C12 for this cache. *)
Example C12_example : r_show [str "rsync://r/ta.cer"; str "rsync://r/b/b.mft"] (blob 21) 100 = Some (8%nat, [true; true; true; true]) /\
  (length r_init + list_sum (map (found_bound (r_cert []) (r_mft (blob 21) 100) r_disk)
    (map str ["t.tal"; "rsync://r/ta.cer"; "rsync://r/ta.mft"; "rsync://r/a.cer"; "rsync://r/b.cer"; "rsync://r/a/a.mft";
              "rsync://r/a/o.roa"; "rsync://r/b/b.mft"]%string)) <= 20)%nat.
Proof. vm_compute. repeat constructor. Qed.

(** C10 fails when another CA names the path first: a CA with an altered entry
    on its manifest stays valid. *)
Theorem C10_claimed_path_refuted :
  exists dec_tal dec_cert dec_mft dec_roa disk P s p g c m name h,
    explores (explore_iter sig_all crl_all dec_tal dec_cert dec_roa dec_mft (no_dec _) (fun x => x) disk (fun _ => true)
      (fun x => x) (fun _ => (50, 50)) true true false) (init_mgr 50 r_init) P s /\ m_queue s = [] /\
    In p P /\ registered s p /\ f_type p = TMft /\ f_parent p = Some g /\ f_type g = TCer /\
    contents disk dec_cert g c /\ contents disk dec_mft p m /\ In (name, h) (mft_files m) /\
    v_valid (m_v s) (c_ski c) <> None /\
    forall raw, disk (entry_uri (fd_repo (f_desc p)) name) = Some raw -> raw <> h.
Proof. exact claimed_refutes. Qed.
Print Assumptions C10_claimed_path_refuted.

(** C54 fails: the ROA of A is valid, but not if B names its path as the
    location of a CRL; nothing else differs, and A stays valid. *)
Theorem C54_suppression_refuted :
  let ok := snd (r_trace [] (blob 21) 100) in
  let bad := snd (r_trace [str "rsync://r/a/o.roa"] (blob 21) 100) in
  v_validroa (m_v ok) (str "O") <> None /\ v_validroa (m_v bad) (str "O") = None /\ v_valid (m_v bad) (str "A") <> None.
Proof. exact suppressed. Qed.
Print Assumptions C54_suppression_refuted.
Print Assumptions C54_named_elsewhere_partial.

(** The ROA on the manifest of A is looked at as such, or as the CRL of B. *)
Example C54_example :
  let look l := option_map (fun f => (fd_type (f_desc f), option_map compute_path (f_parent f)))
    (find (fun f => beq (compute_path f) (str "rsync://r/a/o.roa")) (fst (r_trace l (blob 21) 100))) in
  look [] = Some (TRoa, Some (str "rsync://r/a/a.mft")) /\
  look [str "rsync://r/a/o.roa"] = Some (TCrl, Some (str "rsync://r/b.cer")).
Proof. vm_compute. auto. Qed.
