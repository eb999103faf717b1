(** C73, C74: from the octets in the cache to the exported list. *)
From Coq Require Import String.
From Verif.Model Require Import Base Str NetIP CertRes Roa Ber Tal Validator Explore FileDecoders NetText Output.
From Verif.Spec Require Import Addr Resources Bits IpExtSpec Trust Discovery OutputSpec EndSpec.
From Verif.Proofs Require Import NetIPProofs Witness ValidatorWitness ExploreWitness ObjWitness EndThm EndMeaning EndWitness.

Section Props.
Variable sha256 : bytes -> bytes.
Hypothesis sha_len : forall x, List.length (sha256 x) = 32%nat.
Variable x509_parse : bytes -> option (cert * list (list Z * bytes)).
Variable strict : bool.
Variable sig_ok : cert -> cert -> bool.
Variable crl_sig_ok : cert -> crl -> bool.
Variable dec_crl : bytes -> option crl.
Variable hex_sha1 : bytes -> bytes.
Variable disk : bytes -> option bytes.
Variable synced : bytes -> bool.
Variable clock : nat -> Z * Z.
Variable strict_manifests : bool.
Variable strict_hash : bool.
Variable add_invalid : bool.
Hypothesis cache : octet_cache disk.
Notation dec_cert := (file_cert x509_parse).
Notation explore_iter := (explore_iter sig_ok crl_sig_ok file_tal dec_cert (file_roa sha256 x509_parse strict)
  (file_mft sha256 x509_parse strict) dec_crl hex_sha1 disk synced sha256 clock strict_manifests strict_hash add_invalid).
Notation explored_all := (explored_all sha256 x509_parse strict sig_ok crl_sig_ok dec_crl hex_sha1 disk synced clock
  strict_manifests strict_hash add_invalid).

(** C73. A ROA reported valid is in a file with the octets of a signed object;
    its signature was checked with the key of the embedded certificate, which
    has a chain up to the key written in a locator; and a manifest lists the
    file. *)
Theorem C73_valid_roa : forall now init P s x, explores explore_iter (init_mgr now init) P s -> only_locators init ->
  valid_roa (m_v s) x ->
  chain_to sig_ok (locator_names dec_cert hex_sha1 disk P) (m_v s) (roa_cert x) /\
  exists f raw d, In f P /\ f_type f = TRoa /\ Discovery.holds disk f raw d /\
    signed_roa sha256 dec_cert d (roa_asn x) (roa_entries x) (roa_cert x) /\
    exists p rawp dp h, f_parent f = Some p /\ In p P /\ f_type p = TMft /\ Discovery.holds disk p rawp dp /\
      manifest_lists sha256 dec_cert (add_invalid = false) dp (f_path f) h /\ (strict_hash = true -> sha256 raw = h).
Proof. exact (valid_roa_octets sha256 sha_len x509_parse strict sig_ok crl_sig_ok dec_crl hex_sha1 disk synced clock strict_manifests strict_hash add_invalid cache). Qed.

(** The same for each entry of the exported list. *)
Theorem C73_exported : forall xs tals filt names paths now dur L, explored_all xs tals ->
  generate_list filt names paths tals now dur = Ret L -> forall r, In r (l_data L) ->
  exists j q f raw d asn entries e c, nth_error xs j = Some q /\
    In f (x_files q) /\ f_type f = TRoa /\ Discovery.holds disk f raw d /\
    signed_roa sha256 dec_cert d asn entries c /\ In e entries /\
    r = mkJ (ipnet_text (re_net e)) (re_maxlen e mod 256) ([65; 83] ++ dec asn) (tal_name names paths j) /\
    chain_to sig_ok (locator_names dec_cert hex_sha1 disk (x_files q)) (m_v (x_mgr q)) c /\
    exists p rawp dp h, f_parent f = Some p /\ In p (x_files q) /\ f_type p = TMft /\ Discovery.holds disk p rawp dp /\
      manifest_lists sha256 dec_cert (add_invalid = false) dp (f_path f) h /\ (strict_hash = true -> sha256 raw = h).
Proof. exact (exported_octets sha256 sha_len x509_parse strict sig_ok crl_sig_ok dec_crl hex_sha1 disk synced clock strict_manifests strict_hash add_invalid cache). Qed.

(** C74, under [plain_certs]. The addresses shown for an entry are those of a
    bit string in the ROA; certificates up to the one named by a locator hold
    them. *)
Theorem C74_octets_to_resources_partial : forall xs tals filt names paths now dur L, explored_all xs tals ->
  (forall q, In q xs -> plain_certs disk dec_cert q) ->
  generate_list filt names paths tals now dur = Ret L -> forall r, In r (l_data L) ->
  exists j q f raw d asn entries e c fam n b ip, nth_error xs j = Some q /\
    In f (x_files q) /\ f_type f = TRoa /\ Discovery.holds disk f raw d /\
    signed_roa sha256 dec_cert d asn entries c /\ In e entries /\
    prefix_of fam b (Some (re_net e)) /\ fam_octets fam n /\ wf_bits b /\ bs_len b <= 8 * Z.of_nat n /\
    List.length ip = n /\ addr_val ip = bits_val b * 2 ^ (8 * Z.of_nat n - bs_len b) /\
    shows r ip (bs_len b) /\ j_len r = re_maxlen e /\ bs_len b <= j_len r <= 8 * Z.of_nat n /\
    j_asn r = [65; 83] ++ dec asn /\ j_ta r = tal_name names paths j /\
    chain_to sig_ok (locator_names dec_cert hex_sha1 disk (x_files q)) (m_v (x_mgr q)) c /\
    OutputSpec.holds sig_ok (under_locator disk dec_cert (x_files q)) (m_v (x_mgr q)) n
      (bits_val b * 2 ^ (8 * Z.of_nat n - bs_len b)) ((bits_val b + 1) * 2 ^ (8 * Z.of_nat n - bs_len b) - 1) c.
Proof. exact (exported_means sha256 sha_len x509_parse strict sig_ok crl_sig_ok dec_crl hex_sha1 disk synced clock strict_manifests strict_hash add_invalid cache). Qed.
End Props.
Print Assumptions C73_valid_roa.
Print Assumptions C73_exported.
Print Assumptions C74_octets_to_resources_partial.

(** A locator, the certificate it names, a signed manifest and a signed ROA, as
    octets; what is explored and exported. *)
Example C73_example :
  (forall x, List.length (sha0 x) = 32%nat) /\ octet_cache e_disk /\
  explored_all sha0 e_x509 true sig_all crl_all (no_dec _) (fun x => x) e_disk (fun _ => true) (fun _ => (e_now, e_now))
    true true false [e_expl] [e_valid_roas] /\
  (forall q, In q [e_expl] -> plain_certs e_disk (file_cert e_x509) q) /\
  m_queue (x_mgr e_expl) = [] /\
  map compute_path (x_files e_expl) = map str ["t.tal"; "rsync://r/ta.cer"; "rsync://r/ta.mft"; "rsync://r/o.roa"]%string /\
  exists L, generate_list true [str "ta"] [str "t.tal"] [e_valid_roas] 100 60 = Ret L /\
    l_data L = [mkJ (str "10.1.0.0/16") 24 (str "AS65000") (str "ta")].
Proof.
  split; [intros x; reflexivity|]. split; [exact e_cache|]. split; [exact e_all|].
  split; [intros q [<-|[]]; exact e_plain|]. split; [exact (proj2 e_explores)|]. split; [vm_compute; reflexivity|].
  eexists. split; vm_compute; reflexivity.
Qed.

(** An octet of the message digest altered: the files are the same, but no ROA
    is valid. *)
Example C73_example_altered :
  let roa' := firstn 240 e_roa ++ [8] ++ skipn 241 e_roa in
  match trace (e_iter_of (table (e_files_of roa'))) 20 (init_mgr e_now r_init) with
  | Some (files, s) => map compute_path files = map compute_path (x_files e_expl) /\
      kin (v_valid (m_v s)) (str "O") = true /\ kin (v_validroa (m_v s)) (str "O") = false
  | None => False
  end.
Proof. vm_compute. repeat split. Qed.
