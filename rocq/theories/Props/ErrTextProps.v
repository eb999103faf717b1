(** C103: what the reports of the manager say. *)
From Coq Require Import Lia String.
From Verif.Model Require Import Base NetIP CertRes Roa Str NetText Ber Tal Validator Explore ErrReport ErrText.
From Verif.Spec Require Import Resources Trust Discovery ErrReportSpec ErrTextSpec.
From Verif.Proofs Require Import Witness ValidatorWitness ExploreWitness ErrReportWitness ErrTextProofs ErrTextThm ErrTextRes ErrTextWitness.

Section Props.
Variable sig_ok : cert -> cert -> bool.
Variable crl_sig_ok : cert -> crl -> bool.
Variable dec_tal : bytes -> option tal.
Variable dec_cert : bytes -> option cert.
Variable dec_roa : bytes -> option roa.
Variable dec_mft : bytes -> option mft.
Variable dec_crl : bytes -> option crl.
Variable hex_sha1 : bytes -> bytes.
Variable disk : bytes -> option bytes.
Variable synced : bytes -> bool.
Variable sha256 : bytes -> bytes.
Variable clock : nat -> Z * Z.
Variable strict_manifests : bool.
Variable strict_hash : bool.
Variable add_invalid : bool.
Variable nil_text : go bytes.
Variable time_text : Z -> bytes.
Variable sig_text : cert -> cert -> bytes.
Variable dec_text : ftype -> bytes -> bytes.
Variable entries_text : list roa_entry -> bytes.
Variable roa_inner_text : roa -> bytes.
Variable mft_inner_text : mft -> bytes.
Variable path_text : mft -> bytes.
Variable read_text : pkifile -> bytes.
Notation explore_errs := (explore_errs sig_ok crl_sig_ok dec_tal dec_cert dec_roa dec_mft dec_crl hex_sha1 disk synced sha256 clock strict_manifests strict_hash add_invalid nil_text time_text sig_text dec_text entries_text roa_inner_text mft_inner_text path_text read_text).
Notation explore_rep := (explore_rep sig_ok crl_sig_ok dec_tal dec_cert dec_roa dec_mft dec_crl hex_sha1 disk synced sha256 clock strict_manifests strict_hash add_invalid).
Notation resource_err := (resource_err sig_ok crl_sig_ok dec_tal dec_cert dec_roa dec_mft dec_crl time_text sig_text dec_text entries_text roa_inner_text mft_inner_text path_text).
Notation cert_err := (cert_err sig_ok time_text sig_text).

(** The errors are those of C90, in the same order, with the same types and
    files. *)
Theorem C103_reports : forall fuel s,
  (do! (s', es) := explore_errs fuel s in VRet (s', map as_report es)) = explore_rep fuel s.
Proof.
  intros fuel s. exact (proj1 (explore_ok sig_ok crl_sig_ok dec_tal dec_cert dec_roa dec_mft dec_crl hex_sha1 disk synced sha256 clock strict_manifests strict_hash add_invalid
    nil_text time_text sig_text dec_text entries_text roa_inner_text mft_inner_text path_text read_text fuel s)).
Qed.

Let all_sent fuel s s' es (H : explore_errs fuel s = VRet (s', es)) : forall e, In (Some e) es -> sent e.
Proof.
  intros e I. assert (A := proj2 (explore_ok sig_ok crl_sig_ok dec_tal dec_cert dec_roa dec_mft dec_crl hex_sha1 disk synced sha256 clock strict_manifests strict_hash add_invalid
    nil_text time_text sig_text dec_text entries_text roa_inner_text mft_inner_text path_text read_text fuel s) _ _ H).
  eapply Forall_forall in A; [|exact I]. exact (A e eq_refl).
Qed.

(** Every error has a text, without a panic, and its tags tell the trust
    anchor, the type, the files, and identifiers and serial number of the
    certificate; but for the error of a file seen before, which is an error of
    package errors. *)
Theorem C103_told : forall fuel s s' es ta e, explore_errs fuel s = VRet (s', es) -> In (Some e) es ->
  (exists t, err_text nil_text e = Ret t) /\
  tag (collected ta (Some e)) (str "TrustAnchor") = Some ta /\
  ((exists t, e = ErrPlain t) \/ tagged e (tag (collected ta (Some e)))).
Proof.
  intros fuel s s' es ta e H I. assert (S := all_sent _ _ _ _ H _ I). split; [now apply sent_text|now apply sent_tags].
Qed.

(** The text of an error on a certificate tells which certificate and what is
    wrong with it. *)
Theorem C103_text_names : forall fuel s s' es e c t fuel2 s2 s2' es2 e2 c2,
  explore_errs fuel s = VRet (s', es) -> In (Some e) es -> cert_of e = Some c -> octet_ids c ->
  explore_errs fuel2 s2 = VRet (s2', es2) -> In (Some e2) es2 -> cert_of e2 = Some c2 -> octet_ids c2 ->
  err_text nil_text e = Ret t -> err_text nil_text e2 = Ret t ->
  type_of e = type_of e2 /\ c_ski c = c_ski c2 /\ c_aki c = c_aki c2.
Proof.
  intros fuel s s' es e c t fuel2 s2 s2' es2 e2 c2 H I C O H2 I2 C2 O2 T T2.
  exact (text_names nil_text e e2 c c2 t (all_sent _ _ _ _ H _ I) (all_sent _ _ _ _ H2 _ I2) C C2 O O2 T T2).
Qed.

(** The certificate named is the one in the file. *)
Theorem C103_own_certificate : forall f d v e c, resource_err f d v = VRet (Some e) -> cert_of e = Some c ->
  cert_in dec_cert dec_roa dec_mft f d c.
Proof.
  intros f d v e c H. exact (proj2 (proj2 (resource_err_fresh sig_ok crl_sig_ok dec_tal dec_cert dec_roa dec_mft dec_crl time_text sig_text dec_text entries_text roa_inner_text mft_inner_text path_text f d v e H)) c).
Qed.

(** A digest error has the digest that was found, the one that was listed for
    the file, and they differ. *)
Theorem C103_digest : forall fuel s s' es ta e, explore_errs fuel s = VRet (s', es) -> In (Some e) es -> type_of e = EHash ->
  exists f have want, file_of e = Some f /\ fd_hash (f_desc f) = Some want /\ have <> want /\
    err_text nil_text e = Ret (str "file hash is " ++ hexs have ++ str ", expected " ++ hexs want ++ str " from manifest") /\
    tag (collected ta (Some e)) (str "File.Sha256") = Some (hexs have).
Proof. intros fuel s s' es ta e H I. exact (sent_hash nil_text ta e (all_sent _ _ _ _ H _ I)). Qed.

(** A resource error lists elements of the certificate that are not held by
    its issuer, and all those its issuer has nothing to say about. *)
Theorem C103_resources : forall c trust v e, cert_err c trust v = VRet (Some e) -> ce_kind e = EResource ->
  exists p ipt ast a b, valid_under v (c_aki c) p /\ sig_ok p c = true /\ ce_cert e = Some c /\
    cerr_text nil_text e = Ret (str "resource issue for certificate ski:" ++ hexs (c_ski c) ++ str " aki:" ++ hexs (c_aki c) ++ a ++ b) /\
    Forall2 ip_shown (ce_ips e) ipt /\ listing (str "IP") ipt a /\ Forall2 as_shown (ce_asns e) ast /\ listing (str "ASN") ast b /\
    (ce_ips e <> [] \/ ce_asns e <> []) /\ incl (ce_ips e) (c_ips c) /\ incl (ce_asns e) (c_asns c) /\
    (Forall wf_claim (c_ips c) -> wf_list (c_ips p) ->
       (forall i, In i (ce_ips e) -> ip_not_held v p i) /\
       forall i fam lo hi, In i (c_ips c) -> denotes i fam lo hi -> ~ covered (c_ips p) fam lo hi -> ~ inherited (c_ips p) fam ->
         In i (ce_ips e)) /\
    (Forall as_claim (c_asns c) ->
       (forall i, In i (ce_asns e) -> as_not_held v p i) /\
       forall i lo hi, In i (c_asns c) -> as_denotes i lo hi -> ~ as_covered (c_asns p) lo hi -> ~ In ASNull (c_asns p) ->
         In i (ce_asns e)).
Proof. exact (resource_lists sig_ok nil_text time_text sig_text). Qed.

(** The error is a conflict exactly if the key identifier is taken, and names
    the certificate that has it. *)
Theorem C103_conflict : forall ta c trust v e, add_cert_err sig_ok time_text sig_text c trust v = VRet (Some e) ->
  (ce_kind e = EConflict <-> v_objects v (c_ski c) <> None) /\
  forall a r o, ce_kind e = EConflict -> v_objects v (c_ski c) = Some a -> nth_error (v_heap v) a = Some r -> r_obj r = OCert o ->
    forall f sk, let t := tag (collected ta (Some (add_info f sk (ErrCert e)))) in
      t (str "Conflict.SubjectKeyId") = Some (hexs (c_ski o)) /\
      t (str "Conflict.AuthorityKeyId") = Some (hexs (c_aki o)) /\
      t (str "Conflict.SerialNumber") = Some (dec (c_serial o)).
Proof. exact (conflict_told sig_ok time_text sig_text). Qed.

(** A certificate that is not valid yet: its beginning and the time of the
    comparison are told. *)
Theorem C103_early : forall c trust v, v_time v < c_not_before c ->
  exists e, cert_err c trust v = VRet (Some e) /\ ce_kind e = EExpiration /\
    cerr_text nil_text e = Ret (str "expiration issue for certificate ski:" ++ hexs (c_ski c) ++ str " aki:" ++ hexs (c_aki c) ++
      str ": Certificate beginning of validity: " ++ time_text (c_not_before c) ++ str " is after: " ++ time_text (v_time v)).
Proof. exact (early_text sig_ok nil_text time_text sig_text). Qed.
End Props.
Print Assumptions C103_reports.
Print Assumptions C103_told.
Print Assumptions C103_text_names.
Print Assumptions C103_own_certificate.
Print Assumptions C103_digest.
Print Assumptions C103_resources.
Print Assumptions C103_conflict.
Print Assumptions C103_early.

(** The names in the tags stand for one type each. *)
Theorem C103_names : (forall k k', kind_name k = kind_name k' -> k = k') /\ (forall t t', type_name t = type_name t' -> t = t').
Proof. exact (conj kind_names type_names). Qed.
Print Assumptions C103_names.

(** The texts of the explorations of C90: nothing wrong, an altered ROA, a
    manifest out of date. *)
Example C103_example :
  t_texts (blob 21) 100 = [] /\
  t_texts (blob 22) 100 =
    [Ret (str "revocation due to manifest issue for certificate ski:41 aki:52");
     Ret (str "file hash is 040115, expected 040116 from manifest")] /\
  t_texts (blob 21) 49 =
    [Ret (str "revocation due to manifest issue for certificate ski:41 aki:52");
     Ret (str "parent issue for certificate ski:4f aki:41: missing parent")].
Proof. vm_compute. auto. Qed.

(** The tags of the second error. *)
Example C103_example_tags :
  map (t_tag (blob 22) 100 1) [str "Type"; str "File.Path"; str "File.Type"; str "File.Repository"; str "File.Sha256"; str "TrustAnchor"] =
  map Some [str "hash"; str "o.roa"; str "roa"; str "rsync://r/a"; str "040115"; str "t.tal"].
Proof. vm_compute. reflexivity. Qed.

(** A CA below 10.1.0.0/16 and AS 10 to 20 that claims more. *)
Example C103_example_resources : exists e, t_over_err = Some e /\ ce_kind e = EResource /\
  cerr_text Panic e = Ret (str "resource issue for certificate ski:58 aki:41 invalid IP resources (2): [10.9.0.0/16, Min: 11.0.0.0 max: 11.0.0.9] invalid ASN resources (1): [Min: 19 max: 21]").
Proof. eexists. split; [vm_compute; reflexivity|]. split; vm_compute; reflexivity. Qed.

(** The text on an expired certificate gives its beginning as the end of its
    validity: certificates with different ends have the same text. *)
Theorem C103_end_refuted : forall time_text nil_text, exists c c' v e e',
  c_not_after c <> c_not_after c' /\ c_not_before c = c_not_before c' /\
  cert_err sig_all time_text (fun _ _ => []) c false v = VRet (Some e) /\
  cert_err sig_all time_text (fun _ _ => []) c' false v = VRet (Some e') /\
  ce_kind e = EExpiration /\ ce_kind e' = EExpiration /\ cerr_text nil_text e = cerr_text nil_text e'.
Proof. exact end_not_told. Qed.
Print Assumptions C103_end_refuted.

(** The String method of a certificate shows its AS numbers twice, the second
    time in the place of the routing domain identifiers. *)
Theorem C103_rdi_refuted : forall nil_text sia c rdi rdi', cert_text nil_text sia c rdi = cert_text nil_text sia c rdi'.
Proof. exact rdi_not_told. Qed.
Print Assumptions C103_rdi_refuted.

(** Why a CA is given up is not told: an altered file and a manifest out of
    date lead to the same text and the same tags. *)
Theorem C103_reason_refuted : exists e e' s s',
  (exists es, t_explore (blob 22) 100 = VRet (s, es) /\ In (Some e) es) /\
  (exists es, t_explore (blob 21) 49 = VRet (s', es) /\ In (Some e') es) /\
  type_of e = EManifest /\ type_of e' = EManifest /\
  err_text Panic e = err_text Panic e' /\ collected (str "t.tal") (Some e) = collected (str "t.tal") (Some e').
Proof. exact reason_not_told. Qed.
Print Assumptions C103_reason_refuted.
