(** C75: the report on valid objects. *)
From Coq Require Import String.
From Verif.Model Require Import Base Str NetIP CertRes Roa Ber Tal Validator Explore NetText Output Octo Report.
From Verif.Spec Require Import Addr Resources Trust Discovery CtSpec OutputSpec EndSpec ReportSpec.
From Verif.Proofs Require Import NetIPProofs Witness ValidatorWitness ExploreWitness EndWitness ExportProofs ReportThm ReportWitness.

Section Props.
Variable sig_ok : cert -> cert -> bool.
Variable crl_sig_ok : cert -> crl -> bool.
Variable dec_tal : bytes -> option tal.
Variable dec_cert : bytes -> option cert.
Variable dec_roa : bytes -> option roa.
Variable dec_mft : bytes -> option mft.
Variable dec_crl : bytes -> option crl.
Variable hex_sha1 : bytes -> bytes.
Variable disk : bytes -> option bytes.
Variable synced : bytes -> bool.
Variable sha256 : bytes -> bytes.
Variable clock : nat -> Z * Z.
Variable strict_manifests : bool.
Variable strict_hash : bool.
Variable add_invalid : bool.
Variable nil_text : go bytes.
Notation explored_report := (explored_report sig_ok crl_sig_ok dec_tal dec_cert dec_roa dec_mft dec_crl hex_sha1 disk synced
  sha256 clock strict_manifests strict_hash add_invalid).
Notation report := (report disk synced sha256 nil_text).

(** C75. For every locator the report has one entry for each valid object, made
    from the file the object was read from, and no other entries. *)
Theorem C75_report_exact_partial : forall names paths qs ps L, Forall2 explored_report qs ps ->
  report names paths 0 ps = Ret L ->
  exists parts, L = concat parts /\ List.length parts = List.length qs /\
    forall j q l, nth_error qs j = Some q -> nth_error parts j = Some l ->
      report_of disk sha256 dec_cert dec_roa dec_mft (tal_name names paths j) (x_files q) (m_v (x_mgr q)) l.
Proof. intros names paths qs ps L. exact (report_parts sig_ok crl_sig_ok dec_tal dec_cert dec_roa dec_mft dec_crl hex_sha1 disk synced sha256 clock strict_manifests strict_hash add_invalid nil_text names paths qs ps 0%nat L). Qed.

(** While the cache is as it was explored and no valid certificate has a prefix
    that failed to decode, the report does not panic. *)
Theorem C75_report_returns_partial : forall names paths qs ps, Forall2 explored_report qs ps ->
  (forall q, In q qs -> forall c, valid_cert (m_v (x_mgr q)) c -> decoded_cert c) ->
  exists L, report names paths 0 ps = Ret L.
Proof. intros names paths qs ps. exact (report_returns sig_ok crl_sig_ok dec_tal dec_cert dec_roa dec_mft dec_crl hex_sha1 disk synced sha256 clock strict_manifests strict_hash add_invalid nil_text names paths qs ps 0%nat). Qed.
End Props.
Print Assumptions C75_report_exact_partial.
Print Assumptions C75_report_returns_partial.

(** A repository with two CAs, each with a manifest, and one ROA. *)
Example C75_example : p_explored (blob 21) (p_expl (blob 21)) (p_rep (blob 21)) /\
  exists L, report r_disk (fun _ => true) (fun x => x) Panic [str "ta"] [str "t.tal"] 0 [p_rep (blob 21)] = Ret L /\
    map brief L =
      [(Certificate, hexs (str "R"), str "rsync://r/ta.cer"); (Certificate, hexs (str "A"), str "rsync://r/a.cer");
       (Certificate, hexs (str "B"), str "rsync://r/b.cer");
       (Authorisation, hexs (str "O"), str "rsync://r/a/o.roa");
       (Manifest, hexs (str "m"), str "rsync://r/ta.mft"); (Manifest, hexs (str "n"), str "rsync://r/a/a.mft");
       (Manifest, hexs (str "p"), str "rsync://r/b/b.mft")].
Proof.
  split; [apply traced_report; vm_compute; reflexivity|]. eexists. split; [vm_compute; reflexivity|vm_compute; reflexivity].
Qed.

(** Refuted: times after 2262 and AS numbers of more than 32 bits are shown as
    others. *)
Theorem C75_large_values_refuted : l_explored l_expl l_rep /\
  exists e, report r_disk (fun _ => true) (fun x => x) Panic [str "ta"] [str "t.tal"] 0 [l_rep] = Ret [e] /\
    o_ski e = hexs (c_ski l_cert) /\ valid_cert (m_v (x_mgr l_expl)) l_cert /\
    c_not_after l_cert = 253402300799 /\ o_to e = - 4852116232 /\
    c_asns l_cert = [ASNum 4294967301] /\ o_kind e = KCert [] [OAsn 5] [].
Proof.
  split; [apply traced_report; vm_compute; reflexivity|]. eexists. split; [vm_compute; reflexivity|].
  split; [vm_compute; reflexivity|]. split; [|repeat split; vm_compute; reflexivity].
  exists 1%nat. split; [vm_compute; reflexivity|]. eexists. split; vm_compute; reflexivity.
Qed.

(** Refuted: the report panics if a file was removed since and its repository
    does not count as synchronised. *)
Theorem C75_vanished_refuted : l_explored l_expl l_rep /\
  report (fun _ => None) (fun _ => false) (fun x => x) Panic [str "ta"] [str "t.tal"] 0 [l_rep] = Panic.
Proof. split; [apply traced_report; vm_compute; reflexivity|vm_compute; reflexivity]. Qed.

(** Refuted: the report names a manifest although neither its certificate nor
    the CA that issued it is valid (o.roa does not have the listed hash). *)
Theorem C75_manifest_refuted : p_explored (blob 22) (p_expl (blob 22)) (p_rep (blob 22)) /\
  exists L, report r_disk (fun _ => true) (fun x => x) Panic [str "ta"] [str "t.tal"] 0 [p_rep (blob 22)] = Ret L /\
    In (Manifest, hexs (str "n"), str "rsync://r/a/a.mft") (map brief L) /\
    v_valid (m_v (x_mgr (p_expl (blob 22)))) (str "n") = None /\ v_valid (m_v (x_mgr (p_expl (blob 22)))) (str "A") = None.
Proof.
  split; [apply traced_report; vm_compute; reflexivity|]. eexists. split; [vm_compute; reflexivity|].
  split; [vm_compute; tauto|]. split; vm_compute; reflexivity.
Qed.
