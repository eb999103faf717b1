(** C96: revocation lists published in the cache are effective. *)
From Coq Require Import List ZArith Lia Bool String.
From Verif.Model Require Import Base NetIP CertRes Roa Str Ber Tal Validator Explore ObjDer TalText FileDecoders NetText Output X509 CrlMake.
From Verif.Spec Require Import Trust Discovery CtSpec OutputSpec EndSpec CrlSpec X509Spec CrlMakeSpec RevokeSpec.
From Verif.Proofs Require Import EndThm ExploreWitness ValidatorWitness RevokeProofs RevokeThm RevokeWitness.
Import ListNotations.
Open Scope Z_scope.

Section Explored.
Variable sig_ok : cert -> cert -> bool.
Variable crl_sig_ok : cert -> crl -> bool.
Variable dec_tal : bytes -> option tal.
Variable dec_cert : bytes -> option cert.
Variable dec_roa : bytes -> option roa.
Variable dec_mft : bytes -> option mft.
Variable dec_crl : bytes -> option crl.
Variable hex_sha1 : bytes -> bytes.
Variable disk : bytes -> option bytes.
Variable synced : bytes -> bool.
Variable sha256 : bytes -> bytes.
Variable clock : nat -> Z * Z.
Variable strict_manifests strict_hash add_invalid : bool.
Notation explore_iter := (explore_iter sig_ok crl_sig_ok dec_tal dec_cert dec_roa dec_mft dec_crl hex_sha1 disk synced sha256 clock strict_manifests strict_hash add_invalid).
Notation revoked := (revoked disk sha256 dec_cert dec_crl crl_sig_ok).
Notation anchor_file := (anchor_file disk dec_cert).

(** Whatever the order in which files are found, no certificate stays valid that
    is on a list which its issuer published and signed, unless its file is taken
    as a trust anchor. *)
Theorem C96_revoked_partial : forall init now P s c, explores explore_iter (init_mgr now init) P s -> serials_apart (m_v s) ->
  revoked P (m_v s) c -> ~ anchor_file P c -> ~ valid_cert (m_v s) c.
Proof. exact (revoked_not_valid sig_ok crl_sig_ok dec_tal dec_cert dec_roa dec_mft dec_crl hex_sha1 disk synced sha256 clock strict_manifests strict_hash add_invalid). Qed.

(** The chain of each valid certificate and ROA is without such certificates. *)
Theorem C96_chain_partial : forall init now P s, explores explore_iter (init_mgr now init) P s ->
  (forall x, In x init -> fd_trust x = false) -> serials_apart (m_v s) ->
  let bad c := revoked P (m_v s) c /\ ~ anchor_file P c in
  let anchor := tal_anchor dec_tal dec_cert hex_sha1 disk P in
  (forall c, valid_cert (m_v s) c -> clean_chain sig_ok anchor bad (m_v s) c) /\
  (forall x, valid_roa (m_v s) x -> clean_chain sig_ok anchor bad (m_v s) (roa_cert x)).
Proof. exact (clean_chains sig_ok crl_sig_ok dec_tal dec_cert dec_roa dec_mft dec_crl hex_sha1 disk synced sha256 clock strict_manifests strict_hash add_invalid). Qed.
End Explored.

Section Exported.
Variable sha256 : bytes -> bytes.
Hypothesis sha_len : forall x, List.length (sha256 x) = 32%nat.
Variable x509_parse : bytes -> option (cert * list (list Z * bytes)).
Variable strict : bool.
Variable sig_ok : cert -> cert -> bool.
Variable crl_sig_ok : cert -> crl -> bool.
Variable dec_crl : bytes -> option crl.
Variable hex_sha1 : bytes -> bytes.
Variable disk : bytes -> option bytes.
Variable synced : bytes -> bool.
Variable clock : nat -> Z * Z.
Variable strict_manifests strict_hash add_invalid : bool.
Notation dec_cert := (file_cert x509_parse).
Notation explored_all := (explored_all sha256 x509_parse strict sig_ok crl_sig_ok dec_crl hex_sha1 disk synced clock
  strict_manifests strict_hash add_invalid).
Hypothesis cache : octet_cache disk.

(** The same for each entry of the exported list. *)
Theorem C96_exported_partial : forall xs tals filt names paths now dur L, explored_all xs tals ->
  (forall q, In q xs -> serials_apart (m_v (x_mgr q))) ->
  generate_list filt names paths tals now dur = Ret L -> forall r, In r (l_data L) ->
  exists j q x e, nth_error xs j = Some q /\ valid_roa (m_v (x_mgr q)) x /\ In e (roa_entries x) /\
    r = mkJ (ipnet_text (re_net e)) (re_maxlen e mod 256) ([65; 83] ++ dec (roa_asn x)) (tal_name names paths j) /\
    clean_chain sig_ok (tal_anchor file_tal dec_cert hex_sha1 disk (x_files q))
      (fun c => revoked disk sha256 dec_cert dec_crl crl_sig_ok (x_files q) (m_v (x_mgr q)) c /\
                ~ anchor_file disk dec_cert (x_files q) c)
      (m_v (x_mgr q)) (roa_cert x).
Proof. exact (exported_clean sha256 sha_len x509_parse strict sig_ok crl_sig_ok dec_crl hex_sha1 disk synced clock strict_manifests strict_hash add_invalid cache). Qed.
End Exported.

Section Made.
Variable sha256 : bytes -> bytes.
Variable rsa_sign : bytes -> option bytes.
Variable more : bytes -> bool.
Variable other_sig : list Z * bytes -> bytes -> bytes -> bytes -> bool.
Variable disk : bytes -> option bytes.
Variable dec_cert : bytes -> option cert.

(** A list that the library made for an issuer, with the issuer's key, and that
    the issuer published, revokes what it was made for. *)
Theorem C96_made : forall P v f raw o b ca c, In f P -> f_type f = TCrl ->
  Discovery.holds disk f raw b -> (forall h, fd_hash (f_desc f) = Some h -> sha256 raw = h) ->
  order_ok o -> create_crl sha256 rsa_sign o = Some b -> Z.of_nat (List.length b) < 2 ^ 31 -> more b = false ->
  (forall m, bytes_ok (sha256 m) = true) -> or_ski o <> [] ->
  publishes disk dec_cert P v (or_ski o) f -> valid_cert v ca -> c_ski ca = or_ski o -> signs_for sha256 rsa_sign ca ->
  c_aki c = or_ski o -> In (c_serial c) (serials o) ->
  revoked disk sha256 dec_cert (x509_crl more) (x509_crl_signed sha256 other_sig) P v c.
Proof. exact (made_revokes sha256 rsa_sign more other_sig disk dec_cert). Qed.
End Made.
Print Assumptions C96_revoked_partial.
Print Assumptions C96_chain_partial.
Print Assumptions C96_exported_partial.
Print Assumptions C96_made.

(** The authority with serial number 7 is found before the list that revokes it. *)
Example C96_example :
  let P := fst (v_trace v_good true) in let s := snd (v_trace v_good true) in
  explores (v_iter v_good true) (init_mgr 50 r_init) P s /\ serials_apart (m_v s) /\
  (forall x, In x r_init -> fd_trust x = false) /\
  revoked v_disk (fun x => x) (v_cert v_good) v_lists (v_signed true) P (m_v s) v_c /\
  ~ anchor_file v_disk (v_cert v_good) P v_c /\ known_cert (m_v s) v_c /\ valid_cert (m_v s) v_d.
Proof. exact v_revoked. Qed.

(** A sibling authority that names the location of the list as that of its own
    manifest prevents the use of the list, although the manifest of the issuer
    has it with the right digest. *)
Theorem C96_hidden_refuted : ~ (forall crl_sig_ok dec_tal dec_cert dec_roa dec_mft dec_crl disk init now P s p g ca m name raw d l c,
  explores (explore_iter sig_all crl_sig_ok dec_tal dec_cert dec_roa dec_mft dec_crl (fun x => x) disk (fun _ => true)
    (fun x => x) (fun _ => (now, now)) true true false) (init_mgr now init) P s -> m_queue s = [] -> serials_apart (m_v s) ->
  In p P -> registered s p -> f_type p = TMft -> f_parent p = Some g -> f_type g = TCer ->
  contents disk dec_cert g ca -> contents disk dec_mft p m -> In (name, raw) (mft_files m) ->
  disk (entry_uri (fd_repo (f_desc p)) name) = Some raw -> ber2der raw = BOk d -> dec_crl d = Some l ->
  valid_cert (m_v s) ca -> names_issuer l (c_ski ca) -> crl_sig_ok ca l = true ->
  c_aki c = c_ski ca -> In (c_serial c) (crl_serials l) -> ~ anchor_file disk dec_cert P c -> ~ valid_cert (m_v s) c).
Proof.
  intros H. destruct hidden as (A1 & A2 & A3 & A4 & A5 & A6 & A7 & A8 & A9 & A10 & A11 & A12 & A13 & A14 & A15 & A16 & A17 & A18 & A19 & A20 & A21 & _).
  exact (H _ _ _ _ _ _ _ _ _ _ _ _ _ _ _ _ _ _ _ _ A1 A2 A3 A4 A5 A6 A7 A8 A9 A10 A11 A12 A13 A14 A15 A16 A17 A18 A19 A20 A21).
Qed.
Print Assumptions C96_hidden_refuted.

(** Certificates are valid without any accepted list of their issuer. *)
Theorem C96_needed_refuted : ~ (forall crl_sig_ok dec_tal dec_cert dec_roa dec_mft dec_crl disk init now P s c,
  explores (explore_iter sig_all crl_sig_ok dec_tal dec_cert dec_roa dec_mft dec_crl (fun x => x) disk (fun _ => true)
    (fun x => x) (fun _ => (now, now)) true true false) (init_mgr now init) P s -> m_queue s = [] ->
  valid_cert (m_v s) c -> ~ anchor_file disk dec_cert P c -> v_validcrl (m_v s) (c_aki c) <> None).
Proof.
  intros H. destruct unsigned as (A1 & A2 & A3 & A4 & A5). exact (H _ _ _ _ _ _ _ _ _ _ _ _ A1 A2 A3 A4 A5).
Qed.
Print Assumptions C96_needed_refuted.
