(** C76-C79: certificates, chains and revocation lists as octets. *)
From Coq Require Import String.
From Verif.Model Require Import Base Str NetIP CertRes Roa Ber GoTime Tal Validator Explore ObjDer FileDecoders NetText Output X509.
From Verif.Spec Require Import Addr BerSpec IpExtSpec TimeSpec ContentSpec SignedSpec X509Spec ChainSpec Trust Discovery OutputSpec EndSpec.
From Verif.Proofs Require Import NetIPProofs ValidatorWitness ExploreWitness ObjWitness CrlKey EndThm EndWitness X509Thm CrlProofs X509Witness X509Refute.

Section Props.
Variable sha256 : bytes -> bytes.
Hypothesis sha_len : forall x, List.length (sha256 x) = 32%nat.
Variable all_versions keep : bool.
Variable points : list extension -> list bytes.
Variable more : bytes -> bool.
Variable other_sig : list Z * bytes -> bytes -> bytes -> bytes -> bool.
Variable excused : bytes -> bool.
Notation x509 := (x509_cert all_versions keep points more).
Notation signed := (x509_signed all_versions keep sha256 other_sig excused).
Notation crl_signed := (x509_crl_signed sha256 other_sig).

(** C76. What is read from a certificate is written in its octets. *)
Theorem C76_certificate : forall d c, bytes_ok d = true -> file_cert x509 d = Some c ->
  exists x, certificate_read all_versions keep d x c.
Proof. exact (certificate_contents all_versions keep points more). Qed.

(** C77. What it takes to be accepted as issued by another certificate. *)
Theorem C77_issued : forall p c, bytes_ok (c_body p) = true -> bytes_ok (c_body c) = true -> signed p c = true ->
  exists y x, certificate_octets (c_body p) y /\ certificate_octets (c_body c) x /\
    issued all_versions sha256 other_sig excused y x.
Proof. exact (issued_octets all_versions keep sha256 other_sig excused). Qed.

(** C79. What is read from a revocation list, and what it takes to be accepted
    as signed by a certificate. *)
Theorem C79_list : forall d l, bytes_ok d = true -> x509_crl more d = Some l ->
  exists x, list_octets d x /\ crl_body l = d /\ crl_serials l = xl_revoked x /\
    Forall2 (fun e a => snd a = e_value e /\ (fst a = true <-> e_id e = authority_key_id)) (xl_exts x) (crl_exts l).
Proof. exact (crl_octets more). Qed.
Theorem C79_signed : forall p l, bytes_ok (c_body p) = true -> bytes_ok (crl_body l) = true -> crl_signed p l = true ->
  exists y x, certificate_octets (c_body p) y /\ list_octets (crl_body l) x /\
    signed_by sha256 other_sig y (xl_alg x) (xl_tbs x) (xl_sig x).
Proof. exact (crl_signed_octets sha256 other_sig). Qed.

Variable strict : bool.
Variable crl_sig_ok : cert -> crl -> bool.
Variable dec_crl : bytes -> option crl.
Variable hex_sha1 : bytes -> bytes.
Variable disk : bytes -> option bytes.
Variable synced : bytes -> bool.
Variable clock : nat -> Z * Z.
Variable strict_manifests : bool.
Variable strict_hash : bool.
Variable add_invalid : bool.
Hypothesis cache : octet_cache disk.
Notation explore_iter := (explore_iter signed crl_sig_ok file_tal (file_cert x509) (file_roa sha256 x509 strict)
  (file_mft sha256 x509 strict) dec_crl hex_sha1 disk synced sha256 clock strict_manifests strict_hash add_invalid).
Notation explored_all := (explored_all sha256 x509 strict signed crl_sig_ok dec_crl hex_sha1 disk synced clock
  strict_manifests strict_hash add_invalid).
Notation certified_roa := (certified_roa all_versions keep sha256 other_sig excused).

(** C78. A valid ROA is a signed object in the cache; the certificate in it has
    a chain of certificates, all of them octets in the cache, up to one with the
    key in a locator. *)
Theorem C78_valid_roa : forall now init P s x, explores explore_iter (init_mgr now init) P s -> only_locators init ->
  valid_roa (m_v s) x ->
  exists f raw d, In f P /\ f_type f = TRoa /\ Discovery.holds disk f raw d /\
    certified_roa (found_in disk P) (anchored hex_sha1 disk P) now d (roa_asn x) (roa_entries x).
Proof. exact (valid_roa_certified sha256 sha_len all_versions keep points more other_sig excused strict crl_sig_ok dec_crl hex_sha1 disk synced clock strict_manifests strict_hash add_invalid cache). Qed.

(** The same for each exported entry. *)
Theorem C78_exported : forall xs tals filt names paths now dur L, explored_all xs tals ->
  generate_list filt names paths tals now dur = Ret L -> forall r, In r (l_data L) ->
  exists j q f raw d asn entries e, nth_error xs j = Some q /\
    In f (x_files q) /\ f_type f = TRoa /\ Discovery.holds disk f raw d /\ In e entries /\
    r = mkJ (ipnet_text (re_net e)) (re_maxlen e mod 256) ([65; 83] ++ dec asn) (tal_name names paths j) /\
    certified_roa (found_in disk (x_files q)) (anchored hex_sha1 disk (x_files q)) (x_now q) d asn entries.
Proof. exact (exported_certified sha256 sha_len all_versions keep points more other_sig excused strict crl_sig_ok dec_crl hex_sha1 disk synced clock strict_manifests strict_hash add_invalid cache). Qed.
End Props.
Print Assumptions C76_certificate.
Print Assumptions C77_issued.
Print Assumptions C79_list.
Print Assumptions C79_signed.
Print Assumptions C78_valid_roa.
Print Assumptions C78_exported.

(** A certificate, and what is read from it *)
Example C76_example : bytes_ok w_root = true /\
  match file_cert w_x509 w_root with
  | Some c => c_ski c = str "R" /\ c_aki c = str "R" /\ c_serial c = 1 /\ c_alg c = 1 /\ c_key c = RSAPtr n0 1 /\
      c_not_before c = 1577836800 /\ c_not_after c = 1893456000 /\ c_ips c = [INet (Some net10)] /\
      c_sia c = [(SiaRepo, str "rsync://r/"); (SiaManifest, str "rsync://r/ta.mft")]
  | None => False
  end.
Proof. vm_compute. repeat split. Qed.
(** It issues a certificate; one that is no authority, or whose key may not be
    used for it, does not. *)
Example C77_example :
  w_signed (w_read w_root) (w_read (w_end 2 "M")) = true /\
  w_signed (w_read (w_end 3 "R")) (w_read (w_end 2 "M")) = false /\
  w_signed (w_read (w_cert 1 (w_basic ++ w_usage 128 ++ w_keys "R" "R"))) (w_read (w_end 2 "M")) = false.
Proof. vm_compute. repeat split. Qed.
(** A repository as octets, and what is exported *)
Example C78_example :
  (forall x, List.length (sha0 x) = 32%nat) /\ octet_cache w_disk /\
  explored_all sha0 w_x509 false w_signed w_crl_signed (x509_crl w_no) (fun x => x) w_disk (fun _ => true) (fun _ => (e_now, e_now))
    true true false [w_expl] [w_valid_roas] /\
  exists L r, generate_list true [str "ta"] [str "t.tal"] [w_valid_roas] 100 60 = Ret L /\
    l_data L = [r] /\ j_prefix r = str "10.1.0.0/16" /\ j_asn r = str "AS65000".
Proof.
  split; [intros x; reflexivity|]. split; [exact w_cache|]. split; [exact w_all|]. exact (proj2 (proj2 w_found)).
Qed.
Example C79_example : bytes_ok w_crl = true /\
  match x509_crl w_no w_crl with
  | Some l => crl_serials l = [3; 9] /\ crl_aki (crl_exts l) [] = str "R" /\ w_crl_signed (w_read w_root) l = true
  | None => False
  end.
Proof. vm_compute. repeat split. Qed.

(** Extensions marked critical that are unknown are passed over. *)
Theorem C76_critical_refuted : ~ (forall d c x, bytes_ok d = true -> file_cert w_x509 d = Some c -> certificate_octets d x ->
  forall e, In e (xc_exts x) -> e_critical e = true -> known_extension (e_id e)).
Proof. exact critical_refuted. Qed.
Print Assumptions C76_critical_refuted.

(** An authority whose path length is 0 issues another authority. *)
Theorem C77_path_length_refuted : ~ (forall p c y x, bytes_ok (c_body p) = true -> bytes_ok (c_body c) = true -> w_signed p c = true ->
  certificate_octets (c_body p) y -> certificate_octets (c_body c) x ->
  (exists e, last_one basic_id (xc_exts y) e /\ path_octets (e_value e) 0) -> ~ says_authority false x).
Proof. exact path_refuted. Qed.
Print Assumptions C77_path_length_refuted.

(** A certificate that is no authority signs revocation lists. *)
Theorem C79_signer_refuted : ~ (forall p l y, bytes_ok (c_body p) = true -> bytes_ok (crl_body l) = true -> w_crl_signed p l = true ->
  certificate_octets (c_body p) y -> says_authority false y).
Proof. exact signer_refuted. Qed.
Print Assumptions C79_signer_refuted.

(** A list is accepted after its next update. *)
Theorem C79_window_refuted : ~ (forall ops now v l v1 a x, w_run_of ops (new_validator now) = VRet v ->
  add_crl w_crl_signed l v = VRet (v1, (true, a)) -> bytes_ok (crl_body l) = true -> list_octets (crl_body l) x ->
  now <= instant (xl_next x)).
Proof. exact window_refuted. Qed.
Print Assumptions C79_window_refuted.
