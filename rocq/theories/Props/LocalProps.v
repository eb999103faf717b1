(** C82: the list made by localrpki. *)
From Coq Require Import List ZArith String.
From Verif.Model Require Import Base Str NetIP CertRes Roa Ber Tal Validator Explore NetText RrdpXml Output Octo Local.
From Verif.Spec Require Import Addr Resources Canon Trust Discovery OutputSpec LocalSpec.
From Verif.Proofs Require Import Witness ValidatorWitness ExploreWitness LocalThm LocalWitness.
Import ListNotations.
Open Scope Z_scope.

Section Props.
Variable sig_ok : cert -> cert -> bool.
Variable crl_sig_ok : cert -> crl -> bool.
Variable dec_tal : bytes -> option tal.
Variable dec_cert : bytes -> option cert.
Variable dec_roa : bytes -> option roa.
Variable dec_mft : bytes -> option mft.
Variable dec_crl : bytes -> option crl.
Variable hex_sha1 : bytes -> bytes.
Variable disk : bytes -> option bytes.
Variable synced : bytes -> bool.
Variable sha256 : bytes -> bytes.
Variable clock : nat -> Z * Z.
Variable strict_manifests : bool.
Variable strict_hash : bool.
Variable add_invalid : bool.
Notation explored_local := (explored_local sig_ok crl_sig_ok dec_tal dec_cert dec_roa dec_mft dec_crl hex_sha1 disk synced
  sha256 clock strict_manifests strict_hash add_invalid).

(** C82. The list consists of one part for each locator, in order; a part has
    for each valid ROA, once, a line for each entry, with the path of the file
    the ROA was read from.  The entries are those the certificate's addresses
    cover. *)
Theorem C82_exact_partial : forall now inits qs L, Forall2 (explored_local now) inits qs ->
  (forall q, In q qs -> forall x, valid_roa (m_v (lc_mgr q)) x -> plain_roa x) ->
  local_list qs = Ret L ->
  exists parts, L = List.concat parts /\
    Forall2 (fun q l => local_of disk dec_roa (fun x es => part (entry_covered (roa_cert x)) (roa_entries x) es)
      (lc_files q) (m_v (lc_mgr q)) l) qs parts.
Proof. exact (local_list_plain sig_ok crl_sig_ok dec_tal dec_cert dec_roa dec_mft dec_crl hex_sha1 disk synced sha256 clock strict_manifests strict_hash add_invalid). Qed.

(** The same for all ROAs, the entries being the field Valids. *)
Theorem C82_valids : forall now inits qs L, Forall2 (explored_local now) inits qs -> local_list qs = Ret L ->
  exists parts, L = List.concat parts /\
    Forall2 (fun q l => local_of disk dec_roa (fun x es => valids x = Ret es) (lc_files q) (m_v (lc_mgr q)) l) qs parts.
Proof. exact (local_list_parts sig_ok crl_sig_ok dec_tal dec_cert dec_roa dec_mft dec_crl hex_sha1 disk synced sha256 clock strict_manifests strict_hash add_invalid). Qed.

(** The lookup of the file never fails: if no valid certificate has a prefix
    that failed to decode, the list is made without a panic. *)
Theorem C82_returns_partial : forall now inits qs, Forall2 (explored_local now) inits qs ->
  (forall q, In q qs -> forall c, valid_cert (m_v (lc_mgr q)) c -> decoded_cert c) ->
  exists L, local_list qs = Ret L.
Proof. exact (local_list_returns sig_ok crl_sig_ok dec_tal dec_cert dec_roa dec_mft dec_crl hex_sha1 disk synced sha256 clock strict_manifests strict_hash add_invalid). Qed.

(** A time of validation that cannot be read is taken for the beginning of year
    1; then the list is empty, and nothing is reported. *)
Theorem C82_unreadable_time : forall now rfc3339 s inits qs,
  s <> str "now" -> parse_int64 s = None -> rfc3339 s = None ->
  Forall2 (explored_local (valid_time now rfc3339 s)) inits qs ->
  (forall q f x, In q qs -> read_from disk dec_roa (lc_files q) x f -> - 62135596800 < c_not_before (roa_cert x)) ->
  local_list qs = Ret [].
Proof.
  exact (fun now rfc s inits qs A B C F D =>
    local_list_before sig_ok crl_sig_ok dec_tal dec_cert dec_roa dec_mft dec_crl hex_sha1 disk synced sha256 clock strict_manifests strict_hash add_invalid
      zero_time inits qs
      (eq_ind (valid_time now rfc s) (fun t => Forall2 (explored_local t) inits qs) F _ (valid_time_unreadable now rfc s A B C)) D).
Qed.
End Props.
Print Assumptions C82_exact_partial.
Print Assumptions C82_valids.
Print Assumptions C82_returns_partial.
Print Assumptions C82_unreadable_time.

(** The time of validation: the clock, or a number of seconds from 1970. *)
Theorem C82_time : forall now rfc3339,
  valid_time now rfc3339 (str "now") = now /\
  forall n, 0 <= n <= 2 ^ 62 ->
    valid_time now rfc3339 (dec n) = n /\ (0 < n -> valid_time now rfc3339 (45 :: dec n) = - n).
Proof. exact (fun now rfc => conj (valid_time_now now rfc) (valid_time_number now rfc)). Qed.
Print Assumptions C82_time.

(** Where both programs have seen the same, localrpki and octorpki without its
    filters list the same authorisations; octorpki keeps the lowest octet of a
    maximal length. *)
Theorem C82_as_octorpki : forall disk dec_roa P v l ta,
  local_of disk dec_roa (fun x es => valids x = Ret es) P v l ->
  exists t L, lists_valid_roas v t /\ gconcat (map (export_roa ta) t) = Ret L /\
    map vrp L = map (fun r => (lr_prefix r, lr_maxlen r mod 256, lr_asn r)) l.
Proof. exact (fun disk dec_roa => local_export dec_roa disk). Qed.
Print Assumptions C82_as_octorpki.

Example C82_example : t_explored 50 50 r_init (t_local 50 50) /\
  (forall x, valid_roa (m_v (lc_mgr (t_local 50 50))) x -> plain_roa x) /\
  local_list [t_local 50 50] = Ret [mkLocal (str "AS15") (str "10.1.3.0/24") 24 (str "rsync://r/a/o.roa")].
Proof.
  split; [apply t_local_explored; vm_compute; reflexivity|]. split; [exact t_plain|]. vm_compute. reflexivity.
Qed.

(** The time of validation is not used for manifests: for the time 50 the list
    has the ROA, but not if the program is run after the manifest has expired
    (at 101). *)
Theorem C82_historical_refuted :
  t_explored 50 101 r_init (t_local 50 101) /\ local_list [t_local 50 101] = Ret [] /\
  exists L, local_list [t_local 50 50] = Ret L /\ L <> [].
Proof.
  split; [apply t_local_explored; vm_compute; reflexivity|]. split; [vm_compute; reflexivity|].
  eexists. split; [vm_compute; reflexivity|discriminate].
Qed.
Print Assumptions C82_historical_refuted.
