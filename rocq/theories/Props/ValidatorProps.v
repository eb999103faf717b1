(** C01-C09, C14, C52: the object validator. *)
From Coq Require Import Lia String.
From Verif.Model Require Import Base NetIP CertRes Roa Str Tal Validator.
From Verif.Spec Require Import Addr Resources Trust Safe.
From Verif.Proofs Require Import Witness HeapProofs ValidatorInv ValidatorFacts ValidatorRes ValidatorMisc ValidatorPanic ValidatorWitness.

Section Props.
Variable sig_ok : cert -> cert -> bool.
Variable crl_sig_ok : cert -> crl -> bool.
Variable dec_tal : bytes -> option tal.
Variable dec_cert : bytes -> option cert.
Variable dec_roa : bytes -> option roa.
Variable dec_mft : bytes -> option mft.
Variable dec_crl : bytes -> option crl.
Variable hex_sha1 : bytes -> bytes.

Notation add_cert := (add_cert sig_ok).
Notation add_crl := (add_crl crl_sig_ok).
Notation add_resource := (add_resource sig_ok crl_sig_ok dec_tal dec_cert dec_roa dec_mft dec_crl hex_sha1).
Notation step := (step sig_ok crl_sig_ok dec_tal dec_cert dec_roa dec_mft dec_crl hex_sha1).
Notation run := (run sig_ok crl_sig_ok dec_tal dec_cert dec_roa dec_mft dec_crl hex_sha1).
Notation anchor := (given_as_anchor dec_cert).

(** C01. After any operations every valid certificate has a chain of valid
    issuers, inside their validity windows and linked by verified signatures,
    ending in a trust anchor. *)
Theorem C01_valid_certificates_have_chain : forall ops now v, run ops (new_validator now) = VRet v ->
  v_time v = now /\
  forall k a, v_valid v k = Some a ->
    exists c, cert_at v a c /\ c_ski c = k /\ chain sig_ok dec_cert ops v c.
Proof. exact (chain_of_valid sig_ok crl_sig_ok dec_tal dec_cert dec_roa dec_mft dec_crl hex_sha1). Qed.

(** The same for the certificate inside every valid ROA. *)
Theorem C01_valid_roas_have_chain : forall ops now v, run ops (new_validator now) = VRet v ->
  forall k b, v_validroa v k = Some b ->
    exists x, roa_at v b x /\ c_ski (roa_cert x) = k /\ roa_inner x = true /\
      validate_entries (roa_entries x) = true /\ chain sig_ok dec_cert ops v (roa_cert x).
Proof. exact (chain_of_roa sig_ok crl_sig_ok dec_tal dec_cert dec_roa dec_mft dec_crl hex_sha1). Qed.

(** C02. Invalidation returns; what is below the key is removed from the valid
    certificates, ROAs and CRLs, everything else is as before. *)
Theorem C02_invalidation_exact : forall ops now v k, run ops (new_validator now) = VRet v ->
  exists v', step (DoInvalidate k) v = VRet v' /\
    (forall k', below v k k' -> v_valid v' k' = None /\ v_validroa v' k' = None /\ v_validcrl v' k' = None) /\
    (forall k', ~ below v k k' -> v_valid v' k' = v_valid v k' /\ v_validroa v' k' = v_validroa v k' /\
                                  v_validcrl v' k' = v_validcrl v k') /\
    v_heap v' = v_heap v /\ v_objects v' = v_objects v /\ v_tals v' = v_tals v /\ v_path v' = v_path v /\
    v_serial v' = v_serial v /\ v_revoked v' = v_revoked v /\ v_crl v' = v_crl v /\ v_roa v' = v_roa v /\
    v_mft v' = v_mft v /\ v_validmft v' = v_validmft v /\ v_time v' = v_time v.
Proof. exact (invalidate_exact sig_ok crl_sig_ok dec_tal dec_cert dec_roa dec_mft dec_crl hex_sha1). Qed.

(** What is below a key was issued, directly or not, by that key. *)
Theorem C02_below_is_issued : forall ops now v k k', run ops (new_validator now) = VRet v ->
  below v k k' -> issuers v k' k.
Proof. exact (below_is_issued sig_ok crl_sig_ok dec_tal dec_cert dec_roa dec_mft dec_crl hex_sha1). Qed.

(** Valid certificates issued, directly or not, by the key are removed, and so
    are their ROAs. *)
Theorem C02_issued_is_removed : forall ops now v k v', run ops (new_validator now) = VRet v ->
  step (DoInvalidate k) v = VRet v' ->
  forall k', signed_down (anchor ops) v k k' -> v_valid v' k' = None /\ v_validroa v' k' = None.
Proof. exact (signed_removed sig_ok crl_sig_ok dec_tal dec_cert dec_roa dec_mft dec_crl hex_sha1). Qed.

(** C03. What has been invalidated never becomes valid again. *)
Theorem C03_invalidation_permanent : forall ops now v k v1 ops2 v2 k',
  run ops (new_validator now) = VRet v -> step (DoInvalidate k) v = VRet v1 ->
  below v k k' -> v_objects v k' <> None -> run ops2 v1 = VRet v2 ->
  v_valid v2 k' = None /\ v_validroa v2 k' = None /\ v_validcrl v2 k' = None.
Proof. exact (invalidated_never_again sig_ok crl_sig_ok dec_tal dec_cert dec_roa dec_mft dec_crl hex_sha1). Qed.

(** However it came to be invalid: a known object that is not valid stays so. *)
Theorem C03_not_valid_stays : forall ops now v ops2 v2 k,
  run ops (new_validator now) = VRet v -> v_objects v k <> None -> v_valid v k = None ->
  run ops2 v = VRet v2 ->
  v_valid v2 k = None /\ v_validroa v2 k = None /\ v_validcrl v2 k = None.
Proof. exact (not_valid_never_again sig_ok crl_sig_ok dec_tal dec_cert dec_roa dec_mft dec_crl hex_sha1). Qed.

(** C04. A certificate listed on an accepted CRL and not valid when the CRL has
    been processed is never valid later. *)
Theorem C04_revoked_before_arrival : forall ops now v l v1 a ops2 v2 c,
  run ops (new_validator now) = VRet v -> add_crl l v = VRet (v1, (true, a)) -> run ops2 v1 = VRet v2 ->
  c_aki c = crl_aki (crl_exts l) [] -> In (c_serial c) (crl_serials l) ->
  ~ anchor ops2 c -> ~ valid_cert v1 c -> ~ valid_cert v2 c.
Proof. exact (revoked_not_valid_later sig_ok crl_sig_ok dec_tal dec_cert dec_roa dec_mft dec_crl hex_sha1). Qed.

(** A certificate already there is invalidated, when key identifiers have one
    length and serial numbers are unique per issuer. *)
Theorem C04_revoked_after_arrival_partial : forall ops now v l v1 a s c,
  run ops (new_validator now) = VRet v -> add_crl l v = VRet (v1, (true, a)) ->
  In s (crl_serials l) -> c_aki c = crl_aki (crl_exts l) [] -> c_serial c = s -> ~ anchor ops c ->
  same_length_ids v (crl_aki (crl_exts l) []) -> serials_unique v ->
  ~ valid_cert v1 c.
Proof. exact (crl_removes sig_ok crl_sig_ok dec_tal dec_cert dec_roa dec_mft dec_crl hex_sha1). Qed.

(** C05. What an accepted CRL invalidates is below a certificate of the CRL's
    issuer with a listed serial number. *)
Theorem C05_invalidates_only_listed : forall ops now v l v1 a, run ops (new_validator now) = VRet v ->
  add_crl l v = VRet (v1, (true, a)) ->
  forall k, v_valid v k <> None -> v_valid v1 k = None ->
  exists c, known_cert v c /\ In (c_serial c) (crl_serials l) /\ c_aki c = crl_aki (crl_exts l) [] /\
            issuers v k (c_ski c).
Proof. exact (crl_only_own sig_ok crl_sig_ok dec_tal dec_cert dec_roa dec_mft dec_crl hex_sha1). Qed.

(** A certificate of another issuer, with a key identifier of the same length,
    is not marked as revoked. *)
Theorem C05_other_issuer_not_marked_partial : forall l v v1 a c, add_crl l v = VRet (v1, (true, a)) ->
  length (c_aki c) = length (crl_aki (crl_exts l) []) -> c_aki c <> crl_aki (crl_exts l) [] ->
  kin (v_revoked v1) (serial_key (c_aki c) (c_serial c)) = kin (v_revoked v) (serial_key (c_aki c) (c_serial c)).
Proof. exact (crl_other_not_marked crl_sig_ok). Qed.

(** A CRL that is not accepted has no effect. *)
Theorem C05_rejected_crl_no_effect : forall l v v1 a, add_crl l v = VRet (v1, (false, a)) ->
  v_valid v1 = v_valid v /\ v_validroa v1 = v_validroa v /\ v_validcrl v1 = v_validcrl v /\
  v_validmft v1 = v_validmft v /\ v_objects v1 = v_objects v /\ v_revoked v1 = v_revoked v /\
  v_serial v1 = v_serial v /\ forall x, (x < length (v_heap v))%nat -> nth_error (v_heap v1) x = nth_error (v_heap v) x.
Proof. exact (crl_rejected_nothing crl_sig_ok). Qed.

(** C06. The IP ranges of a valid certificate are held by its issuer or, where
    the issuer inherits, by the issuer of the issuer, unless that one inherits
    too or the issuer is a trust anchor. *)
Theorem C06_ip_claims_held_partial : forall ops now v c, run ops (new_validator now) = VRet v ->
  valid_cert v c -> ~ anchor ops c ->
  exists pc, valid_cert v pc /\ c_aki c = c_ski pc /\
    (Forall wf_claim (c_ips c) -> wf_list (c_ips pc) ->
     forall i fam lo hi, In i (c_ips c) -> denotes i fam lo hi ->
       covered (c_ips pc) fam lo hi \/
       inherited (c_ips pc) fam /\
       (anchor ops pc \/
        exists gc, known_cert v gc /\ c_aki pc = c_ski gc /\
          (wf_list (c_ips gc) -> covered (c_ips gc) fam lo hi \/ inherited (c_ips gc) fam))).
Proof. exact (ip_claims_held sig_ok crl_sig_ok dec_tal dec_cert dec_roa dec_mft dec_crl hex_sha1). Qed.

(** The same for AS numbers. *)
Theorem C06_as_claims_held_partial : forall ops now v c, run ops (new_validator now) = VRet v ->
  valid_cert v c -> ~ anchor ops c ->
  exists pc, valid_cert v pc /\ c_aki c = c_ski pc /\
    (Forall as_claim (c_asns c) ->
     forall i lo hi, In i (c_asns c) -> as_denotes i lo hi ->
       as_covered (c_asns pc) lo hi \/
       In ASNull (c_asns pc) /\
       (anchor ops pc \/
        exists gc, known_cert v gc /\ c_aki pc = c_ski gc /\
          (as_covered (c_asns gc) lo hi \/ In ASNull (c_asns gc)))).
Proof. exact (as_claims_held sig_ok crl_sig_ok dec_tal dec_cert dec_roa dec_mft dec_crl hex_sha1). Qed.

(** C07. A certificate read from the location of a known TAL has the key of
    that TAL, or is refused without any effect. *)
Theorem C07_key_of_tal : forall f p d v v' valid ps oa err ta r t,
  f_type f = TCer -> f_parent f = Some p -> f_type p = TTal ->
  v_tals v (f_path f) = Some ta -> nth_error (v_heap v) ta = Some r -> r_obj r = OTal t ->
  add_resource f d v = VRet (v', (valid, ps, oa, err)) ->
  (exists c n e, dec_cert d = Some c /\ t_alg t = alg_rsa /\ c_alg c = alg_rsa /\
     t_key t = RSAPtr n e /\ c_key c = RSAPtr n e) \/
  (v' = v /\ valid = false /\ ps = [] /\ oa = None /\ err = true).
Proof. exact (tal_binding sig_ok crl_sig_ok dec_tal dec_cert dec_roa dec_mft dec_crl hex_sha1). Qed.

(** Only reading a TAL produces files to be trusted, and the TAL is known for
    the location of that file. *)
Theorem C07_trust_only_from_tal : forall f d v v' valid ps oa err p,
  add_resource f d v = VRet (v', (valid, ps, oa, err)) -> In p ps -> fd_trust p = true ->
  f_type f = TTal /\ exists t a, dec_tal d = Some t /\ p = mkFile [] (get_rsync_uri hex_sha1 t) TCer true None /\
    v_tals v' (fd_path p) = Some a /\ exists r, nth_error (v_heap v') a = Some r /\ r_obj r = OTal t.
Proof. exact (trust_only_from_tal sig_ok crl_sig_ok dec_tal dec_cert dec_roa dec_mft dec_crl hex_sha1). Qed.

(** A valid certificate without issuer was handed in as trust anchor. *)
Theorem C07_no_issuer_is_anchor : forall ops now v c a r, run ops (new_validator now) = VRet v ->
  v_valid v (c_ski c) = Some a -> nth_error (v_heap v) a = Some r -> r_obj r = OCert c ->
  r_parent r = None -> anchor ops c.
Proof. exact (no_issuer_is_anchor sig_ok crl_sig_ok dec_tal dec_cert dec_roa dec_mft dec_crl hex_sha1). Qed.

(** C08. An operation bringing a certificate with a known key identifier
    changes no stored object, no child list and no validity index. *)
Theorem C08_conflict_no_effect : forall o v v' k,
  brought dec_cert dec_roa dec_mft o = Some k -> v_objects v k <> None ->
  step o v = VRet v' -> same_content v v'.
Proof. exact (conflict_step sig_ok crl_sig_ok dec_tal dec_cert dec_roa dec_mft dec_crl hex_sha1). Qed.

(** The caller is told so. *)
Theorem C08_conflict_reported : forall f d v v' res k,
  brought dec_cert dec_roa dec_mft (DoResource f d) = Some k -> kin (v_objects v) k = true ->
  add_resource f d v = VRet (v', res) ->
  same_content v v' /\ exists ps oa, res = (false, ps, oa, true).
Proof. exact (conflict_resource sig_ok crl_sig_ok dec_tal dec_cert dec_roa dec_mft dec_crl hex_sha1). Qed.

(** C09. The indexes agree. *)
Theorem C09_indexes_agree : forall ops now v, run ops (new_validator now) = VRet v ->
  (forall k a, v_valid v k = Some a -> v_objects v k = Some a) /\
  (forall k a, v_objects v k = Some a -> exists c, cert_at v a c /\ c_ski c = k) /\
  (forall k b, v_validroa v k = Some b -> v_roa v k <> None /\
     exists x a, roa_at v b x /\ c_ski (roa_cert x) = k /\ v_valid v k = Some a /\ cert_at v a (roa_cert x)) /\
  (forall k b, v_validcrl v k = Some b -> v_crl v k <> None /\ v_valid v k <> None) /\
  (forall k b, v_validmft v k = Some b -> v_mft v k <> None /\
     exists m a r, nth_error (v_heap v) b = Some r /\ r_obj r = OMft m /\ c_ski (mft_cert m) = k /\
       v_objects v k = Some a /\ cert_at v a (mft_cert m)).
Proof. exact (indexes_agree sig_ok crl_sig_ok dec_tal dec_cert dec_roa dec_mft dec_crl hex_sha1). Qed.

(** C14. Every loop ends, whatever the objects. *)
Theorem C14_loops_end : forall ops now, run ops (new_validator now) <> VFuel.
Proof. exact (fresh_never_fuel sig_ok crl_sig_ok dec_tal dec_cert dec_roa dec_mft dec_crl hex_sha1). Qed.

(** No panic when no certificate has a prefix without address, RSA keys are
    pointers, and CRLs are not handed in as files. *)
Theorem C14_no_panic_partial : forall ops now,
  Forall (fun o => Forall safe_obj (carried dec_tal dec_cert dec_roa dec_mft dec_crl o) /\ no_crl_file o) ops ->
  exists v, run ops (new_validator now) = VRet v.
Proof. exact (fresh_never_panics sig_ok crl_sig_ok dec_tal dec_cert dec_roa dec_mft dec_crl hex_sha1). Qed.

(** CRLs as files too, when the file was found through a manifest of a
    certificate and the CRL names a known certificate read from a file. *)
Theorem C14_next_no_panic_partial : forall ops now v o, run ops (new_validator now) = VRet v ->
  Forall (fun o => Forall safe_obj (carried dec_tal dec_cert dec_roa dec_mft dec_crl o)) (ops ++ [o]) ->
  crl_file_ok dec_crl o v ->
  exists v', step o v = VRet v'.
Proof. exact (step_never_panics sig_ok crl_sig_ok dec_tal dec_cert dec_roa dec_mft dec_crl hex_sha1). Qed.
(** C52, what holds: an accepted manifest is signed, inside the validity window,
    by an unrevoked certificate issued by a CA with a chain to a trust anchor. *)
Theorem C52_issuer_valid_partial : forall ops now v f d v' ps a err, run ops (new_validator now) = VRet v -> f_type f = TMft ->
  add_resource f d v = VRet (v', (true, ps, a, err)) ->
  exists m p, dec_mft d = Some m /\ mft_inner m = true /\ in_window (mft_cert m) now /\
    chain sig_ok dec_cert ops v p /\ c_aki (mft_cert m) = c_ski p /\ sig_ok p (mft_cert m) = true /\
    kin (v_revoked v) (serial_key (c_aki (mft_cert m)) (c_serial (mft_cert m))) = false.
Proof. exact (mft_issuer sig_ok crl_sig_ok dec_tal dec_cert dec_roa dec_mft dec_crl hex_sha1). Qed.
End Props.

Print Assumptions C01_valid_certificates_have_chain.
Print Assumptions C01_valid_roas_have_chain.
Print Assumptions C02_invalidation_exact.
Print Assumptions C02_below_is_issued.
Print Assumptions C02_issued_is_removed.
Print Assumptions C03_invalidation_permanent.
Print Assumptions C03_not_valid_stays.
Print Assumptions C04_revoked_before_arrival.
Print Assumptions C04_revoked_after_arrival_partial.
Print Assumptions C05_invalidates_only_listed.
Print Assumptions C05_other_issuer_not_marked_partial.
Print Assumptions C05_rejected_crl_no_effect.
Print Assumptions C06_ip_claims_held_partial.
Print Assumptions C06_as_claims_held_partial.
Print Assumptions C07_key_of_tal.
Print Assumptions C07_trust_only_from_tal.
Print Assumptions C07_no_issuer_is_anchor.
Print Assumptions C08_conflict_no_effect.
Print Assumptions C08_conflict_reported.
Print Assumptions C09_indexes_agree.
Print Assumptions C14_loops_end.
Print Assumptions C14_no_panic_partial.
Print Assumptions C14_next_no_panic_partial.

(** The examples use one trust anchor R, CAs A and B below it, certificates L
    (below A) and M (below B), a ROA O below A. *)
Example C01_example : show w_keys (w_run w_ops) =
  Some [(true, false); (true, false); (true, false); (true, true); (true, false); (true, false)].
Proof. vm_compute. reflexivity. Qed.

Example C02_example : show w_keys (w_run (w_ops ++ [DoInvalidate (str "A")])) =
  Some [(true, false); (false, false); (false, false); (false, false); (true, false); (true, false)].
Proof. vm_compute. reflexivity. Qed.

Example C03_example : show w_keys (w_run (w_ops ++ [DoInvalidate (str "A"); DoCert w_ca true; DoCert w_leaf true; DoRoa None w_roa])) =
  Some [(true, false); (false, false); (false, false); (false, false); (true, false); (true, false)].
Proof. vm_compute. reflexivity. Qed.

(** Both orders: the CRL after the certificate, and before it. *)
Example C04_example :
  show w_keys (w_run (w_ops ++ [DoCrl (w_crl (str "A") [9])])) =
    Some [(true, false); (true, false); (false, false); (true, true); (true, false); (true, false)] /\
  show w_keys (w_run [DoCert w_root true; DoCert w_ca false; DoCrl (w_crl (str "A") [9]); DoCert w_leaf false]) =
    Some [(true, false); (true, false); (false, false); (false, false); (false, false); (false, false)].
Proof. vm_compute. auto. Qed.

(** C04 fails when a serial number is reused: only the later certificate is in
    the index. *)
Theorem C04_serial_reuse_refuted : exists c1 c2 l,
  c_aki c1 = crl_aki (crl_exts l) [] /\ In (c_serial c1) (crl_serials l) /\
  match w_run [DoCert w_root true; DoCert c1 false; DoCert c2 false; DoCrl l] with
  | VRet v => v_valid v (c_ski c1) <> None /\ kin (v_revoked v) (serial_key (c_aki c1) (c_serial c1)) = true
  | _ => False
  end.
Proof.
  exists w_ca, (mkc (str "C") (str "R") 7 [] []), (w_crl (str "R") [7]). vm_compute.
  repeat split; auto. discriminate.
Qed.
Print Assumptions C04_serial_reuse_refuted.

(** C05: the CRL of A with serial 9 leaves M alone although its serial number
    is 9 too. *)
Example C05_example : show w_keys (w_run (w_ops ++ [DoCrl (w_crl (str "A") [9])])) =
  Some [(true, false); (true, false); (false, false); (true, true); (true, false); (true, false)].
Proof. vm_compute. reflexivity. Qed.

(** C05 fails when the key identifiers differ in length: serial 15 of issuer R
    is serial 5 of issuer R1. *)
Theorem C05_serial_key_collision_refuted : exists ca c l,
  c_aki c = c_ski ca /\ c_aki c <> crl_aki (crl_exts l) [] /\
  match w_run [DoCert w_root true; DoCert ca false; DoCert c false],
        w_run [DoCert w_root true; DoCert ca false; DoCrl l; DoCert c false] with
  | VRet v1, VRet v2 => v_valid v1 (c_ski c) <> None /\ v_valid v2 (c_ski ca) <> None /\ v_valid v2 (c_ski c) = None
  | _, _ => False
  end.
Proof.
  exists (mkc (str "R1") (str "R") 2 [] []), (mkc (str "X") (str "R1") 5 [] []), (w_crl (str "R") [15]).
  vm_compute. repeat split; discriminate.
Qed.
Print Assumptions C05_serial_key_collision_refuted.

(** C06: A claims 10.1.0.0/16 of R's 10.0.0.0/8; a certificate claiming
    11.0.0.0/8 is refused, also below an inheriting CA. *)
Example C06_example :
  show [str "A"; str "X"] (w_run [DoCert w_root true; DoCert w_ca false; DoCert (mkc (str "X") (str "A") 3 [pfx (ip4 11 0 0 0) 8] []) false])
    = Some [(true, false); (false, false)] /\
  show [str "I"; str "X"; str "Y"] (w_run [DoCert w_root true; DoCert (mkc (str "I") (str "R") 3 [INull 1] [ASNull]) false;
      DoCert (mkc (str "X") (str "I") 4 [pfx (ip4 11 0 0 0) 8] []) false;
      DoCert (mkc (str "Y") (str "I") 5 [pfx (ip4 10 9 0 0) 16] [ASNum 3]) false])
    = Some [(true, false); (false, false); (true, false)].
Proof. vm_compute. auto. Qed.

(** C06 fails below two inheriting CAs: resources nobody holds are accepted. *)
Theorem C06_inherit_twice_refuted : exists root i1 i2 c,
  match w_run [DoCert root true; DoCert i1 false; DoCert i2 false; DoCert c false] with
  | VRet v => v_valid v (c_ski c) <> None /\ c_aki c = c_ski i2 /\ c_aki i2 = c_ski i1 /\ c_aki i1 = c_ski root
  | _ => False
  end /\
  c_ips root = [pfx (ip4 10 0 0 0) 8] /\ c_ips i1 = [INull 1] /\ c_ips i2 = [INull 1] /\
  c_ips c = [pfx (ip4 11 0 0 0) 8] /\ c_asns root = [ASRange 0 1000] /\ c_asns i1 = [ASNull] /\
  c_asns i2 = [ASNull] /\ c_asns c = [ASNum 65000].
Proof.
  exists w_root, (mkc (str "I") (str "R") 2 [INull 1] [ASNull]), (mkc (str "J") (str "I") 3 [INull 1] [ASNull]),
    (mkc (str "X") (str "J") 4 [pfx (ip4 11 0 0 0) 8] [ASNum 65000]).
  vm_compute. repeat split; discriminate.
Qed.
Print Assumptions C06_inherit_twice_refuted.

(** C06 fails below an inheriting trust anchor. *)
Theorem C06_anchor_inherits_refuted : exists root c,
  match w_run [DoCert root true; DoCert c false] with
  | VRet v => v_valid v (c_ski c) <> None /\ c_aki c = c_ski root
  | _ => False
  end /\
  c_ips root = [INull 1] /\ c_ips c = [pfx (ip4 11 0 0 0) 8].
Proof.
  exists (mkc (str "R") (str "R") 1 [INull 1] []), (mkc (str "X") (str "R") 4 [pfx (ip4 11 0 0 0) 8] []).
  vm_compute. repeat split; discriminate.
Qed.
Print Assumptions C06_anchor_inherits_refuted.

(** A TAL, its certificate with the right key, then with another key. *)
Definition w_tal := mkTal [str "rsync://ta/root.cer"] alg_rsa (RSAPtr 77 3).
Definition w_tal_file := PFile 0 (mkFile [] (str "root.tal") TTal false None) None.
Definition w_root_file := PFile 1 (mkFile [] (str "rsync://ta/root.cer") TCer true None) (Some w_tal_file).
Definition w_decode (other : bool) (_ : bytes) : option cert :=
  Some (if other then mkCert (str "R") (str "R") 1 0 100 [] [] 1 (RSAPtr 78 3) [] [] [] else w_root).
Definition w_run_tal (sig : cert -> cert -> bool) (other : bool) : vres validator :=
  run sig crl_all (fun _ => Some w_tal) (w_decode other) (no_dec _) (no_dec _) (no_dec _) (fun x => x)
    [DoResource w_tal_file []; DoResource w_root_file []] (new_validator 50).
Example C07_example :
  show [str "R"] (w_run_tal sig_all false) = Some [(true, false)] /\
  show [str "R"] (w_run_tal sig_all true) = Some [(false, false)].
Proof. vm_compute. auto. Qed.

(** C07: the signature on the trust anchor certificate is never checked. *)
Theorem C07_anchor_signature_refuted :
  show [str "R"] (w_run_tal (fun _ _ => false) false) = Some [(true, false)].
Proof. vm_compute. reflexivity. Qed.
Print Assumptions C07_anchor_signature_refuted.

(** C08: a second certificate with key identifier L, and what it leaves. *)
Example C08_example :
  show w_keys (w_run (w_ops ++ [DoCert (mkc (str "L") (str "B") 44 [] []) false])) = show w_keys (w_run w_ops) /\
  show [str "L"] (w_run w_ops) = Some [(true, false)].
Proof. vm_compute. auto. Qed.

(** C08 fails for the index of all ROAs: the rejected ROA replaces the one
    stored. *)
Theorem C08_roa_index_overwritten_refuted : exists x,
  match w_run w_ops, w_run (w_ops ++ [DoRoa None x]) with
  | VRet v1, VRet v2 => v_roa v1 (c_ski (roa_cert x)) <> v_roa v2 (c_ski (roa_cert x)) /\
                        v_validroa v1 (c_ski (roa_cert x)) = v_validroa v2 (c_ski (roa_cert x)) /\
                        v_validroa v2 (c_ski (roa_cert x)) <> None
  | _, _ => False
  end.
Proof. exists (mkRoa (mkc (str "O") (str "B") 3 [] []) 1 [] false). vm_compute. repeat split; discriminate. Qed.
Print Assumptions C08_roa_index_overwritten_refuted.

Definition w_mft := mkMft (mkc (str "F") (str "A") 21 [] []) [(str "x.roa", [])] 0 100 true.
Example C09_example :
  match w_run (w_ops ++ [DoMft None w_mft; DoCrl (w_crl (str "A") [3])]) with
  | VRet v => v_validmft v (str "F") <> None /\ v_mft v (str "F") <> None /\ v_validcrl v (str "A") <> None /\
              v_validroa v (str "O") <> None
  | _ => False
  end.
Proof. vm_compute. repeat split; discriminate. Qed.

(** C09: a valid manifest can have an invalid certificate; InvalidateObject
    does not remove it from the valid manifests. *)
Theorem C09_manifest_of_invalid_certificate_refuted :
  match w_run (w_ops ++ [DoMft None w_mft; DoInvalidate (str "A")]) with
  | VRet v => v_validmft v (str "F") <> None /\ v_valid v (str "F") = None
  | _ => False
  end.
Proof. vm_compute. split; [discriminate|reflexivity]. Qed.
Print Assumptions C09_manifest_of_invalid_certificate_refuted.

Example C14_example :
  Forall (fun o => Forall safe_obj (carried (no_dec _) (no_dec _) (no_dec _) (no_dec _) (no_dec _) o) /\ no_crl_file o)
         (w_ops ++ [DoMft None w_mft; DoCrl (w_crl (str "A") [9]); DoInvalidate (str "B")]).
Proof.
  repeat constructor; cbn; try (intros i H; repeat (destruct H as [<-|H]; [discriminate|]); contradiction);
    intros _; eexists _, _; reflexivity.
Qed.

(** C14: a prefix in a block of an address family other than IPv4 and IPv6 is
    decoded to a prefix without address, and validating a certificate with such
    a prefix panics. *)
Theorem C14_unknown_family_refuted : exists fam b i c,
  decode_ranges fam [OBits b] = ([i], true) /\ c_ips c = [i] /\ w_run [DoCert w_root true; DoCert c false] = VPanic.
Proof. exists [0; 3], (mkBits [10] 8), (INet None), (mkc (str "X") (str "R") 3 [INet None] []). vm_compute. auto. Qed.
Print Assumptions C14_unknown_family_refuted.

(** C14: a CRL file naming an unknown issuer panics. *)
Definition w_crl_file := PFile 3 (mkFile [] (str "x.crl") TCrl false None) (Some w_root_file).
Theorem C14_crl_unknown_issuer_refuted :
  run sig_all crl_all (no_dec _) (no_dec _) (no_dec _) (no_dec _) (fun _ => Some (w_crl (str "Z") [1])) (fun x => x)
    [DoCert w_root true; DoResource w_crl_file []] (new_validator 50) = VPanic.
Proof. vm_compute. reflexivity. Qed.
Print Assumptions C14_crl_unknown_issuer_refuted.

(** C52: the manifest found at A's location, issued by B, is valid and its
    files are returned as A's. *)
Definition w_a_file := PFile 4 (mkFile [] (str "a.cer") TCer false None) (Some w_root_file).
Definition w_a_mft_file := PFile 5 (mkFile (str "rsync://a/") (str "rsync://a/a.mft") TMft false None) (Some w_a_file).
Theorem C52_manifest_of_other_ca_refuted : exists m,
  match w_run w_ops with
  | VRet v =>
      match add_resource sig_all crl_all (no_dec _) (no_dec _) (no_dec _) (fun _ => Some m) (no_dec _) (fun x => x) w_a_mft_file [] v with
      | VRet (v', (valid, ps, _, err)) => valid = true /\ err = false /\ map fd_path ps = [str "evil.roa"] /\
          c_aki (mft_cert m) = c_ski w_other /\ c_aki (mft_cert m) <> c_ski w_ca
      | _ => False
      end
  | _ => False
  end.
Proof.
  exists (mkMft (mkc (str "F") (str "B") 22 [] []) [(str "evil.roa", [])] 0 100 true).
  vm_compute. repeat split; discriminate.
Qed.
Print Assumptions C52_manifest_of_other_ca_refuted.
Print Assumptions C52_issuer_valid_partial.
(** The manifest above has such an issuer; that of an unknown CA is refused. *)
Example C52_example :
  let add m := match w_run w_ops with
    | VRet v => match add_resource sig_all crl_all (no_dec _) (no_dec _) (no_dec _) (fun _ => Some m) (no_dec _) (fun x => x) w_a_mft_file [] v with
                | VRet (_, (valid, _, _, _)) => Some valid | _ => None end
    | _ => None end in
  let m k := mkMft (mkc (str "F") k 22 [] []) [(str "o.roa", [])] 0 100 true in
  add (m (str "A")) = Some true /\ add (m (str "B")) = Some true /\ add (m (str "Z")) = Some false.
Proof. vm_compute. auto. Qed.
