(** C98: what a correctly run authority publishes is accepted. *)
From Coq Require Import Lia String.
From Coq Require Import List ZArith.
From Verif.Model Require Import Base NetIP CertRes Roa Str Ber Tal Validator Explore NetText Output.
From Verif.Spec Require Import Addr Resources OutputSpec Trust Discovery HonestSpec.
From Verif.Proofs Require Import ValidatorWitness ExploreWitness HonestProofs HonestWitness.
Import ListNotations.
Open Scope Z_scope.

Section Props.
Variable sig_ok : cert -> cert -> bool.
Variable crl_sig_ok : cert -> crl -> bool.
Variable dec_tal : bytes -> option tal.
Variable dec_cert : bytes -> option cert.
Variable dec_roa : bytes -> option roa.
Variable dec_mft : bytes -> option mft.
Variable dec_crl : bytes -> option crl.
Variable hex_sha1 : bytes -> bytes.
Variable disk : bytes -> option bytes.
Variable synced : bytes -> bool.
Variable sha256 : bytes -> bytes.
Variable clock : nat -> Z * Z.
Variable strict_manifests : bool.
Variable strict_hash : bool.
Variable add_invalid : bool.
Variable init : list fdesc.
Notation run := (run sig_ok crl_sig_ok dec_tal dec_cert dec_roa dec_mft dec_crl hex_sha1).
Notation explore_iter := (explore_iter sig_ok crl_sig_ok dec_tal dec_cert dec_roa dec_mft dec_crl hex_sha1 disk synced sha256 clock strict_manifests strict_hash add_invalid).
Notation honest := (honest sig_ok crl_sig_ok dec_tal dec_cert dec_roa dec_mft dec_crl hex_sha1 disk sha256 clock strict_manifests strict_hash).

(** Whatever else is in the cache, a certificate whose file was looked at and
    which is in order together with all those above it, up to the anchor of a
    locator, is valid when exploration is over (and at any moment after its file
    was taken). *)
Theorem C98_accepted_partial : forall now P s f c, explores explore_iter (init_mgr now init) P s ->
  honest P now f c -> valid_cert (m_v s) c.
Proof. intros now P s f c. exact (honest_valid sig_ok crl_sig_ok dec_tal dec_cert dec_roa dec_mft dec_crl hex_sha1 disk sha256 clock strict_manifests strict_hash synced add_invalid init P now s f c). Qed.

(** And so is its ROA. *)
Theorem C98_roa_accepted_partial : forall now P s f x, explores explore_iter (init_mgr now init) P s ->
  f_type f = TRoa -> contents disk dec_roa f x -> honest P now f (roa_cert x) -> sound_roa x -> valid_roa (m_v s) x.
Proof. intros now P s f x. exact (honest_roa_valid sig_ok crl_sig_ok dec_tal dec_cert dec_roa dec_mft dec_crl hex_sha1 disk sha256 clock strict_manifests strict_hash synced add_invalid init P now s f x). Qed.

(** Its files are found: what the certificate names, and what its manifest
    lists, is looked at under it if nobody else names the same location. *)
Theorem C98_named_files_found_partial : forall now P s f c x, explores explore_iter (init_mgr now init) P s -> m_queue s = [] ->
  add_invalid = false -> f_type f = TCer -> honest P now f c -> In x (extract_path_cert c) -> undisputed P f x ->
  exists f', In f' P /\ f_parent f' = Some f /\ f_desc f' = x.
Proof. intros now P s f c x. exact (honest_named sig_ok crl_sig_ok dec_tal dec_cert dec_roa dec_mft dec_crl hex_sha1 disk sha256 clock strict_manifests strict_hash synced add_invalid init P now s f c x). Qed.

Theorem C98_entries_found_partial : forall now P s p m, explores explore_iter (init_mgr now init) P s -> m_queue s = [] ->
  f_type p = TMft -> contents disk dec_mft p m -> honest P now p (mft_cert m) -> mft_inner m = true ->
  forall name h, In (name, h) (mft_files m) -> undisputed P p (mkFile [] name (determine_type name) false (Some h)) ->
  exists f, In f P /\ f_parent f = Some p /\ f_desc f = mkFile [] name (determine_type name) false (Some h).
Proof. intros now P s p m. exact (honest_entries sig_ok crl_sig_ok dec_tal dec_cert dec_roa dec_mft dec_crl hex_sha1 disk sha256 clock strict_manifests strict_hash synced add_invalid init P now s p m). Qed.

(** And what it authorises is on the list that is exported, unless the filter is
    on and the prefix is too long for it. *)
Theorem C98_exported_partial : forall now P s f x, explores explore_iter (init_mgr now init) P s ->
  f_type f = TRoa -> contents disk dec_roa f x -> honest P now f (roa_cert x) -> sound_roa x ->
  forall rs tals filt names paths t dur L j q, produced run rs tals -> nth_error rs j = Some q -> run_state q = m_v s ->
  generate_list filt names paths tals t dur = Ret L ->
  forall ip p ml, In (mkEntry (mkNet ip (cidr_mask p (addr_bits ip))) ml) (roa_entries x) -> plain_addr ip -> 0 <= p <= addr_bits ip ->
  filt = false \/ p <= longest ip ->
  In (ipnet_text (mkNet ip (cidr_mask p (addr_bits ip))), ml, str "AS" ++ dec (roa_asn x)) (map vrp (l_data L)).
Proof. intros now P s f x. exact (honest_exported sig_ok crl_sig_ok dec_tal dec_cert dec_roa dec_mft dec_crl hex_sha1 disk sha256 clock strict_manifests strict_hash synced add_invalid init P now s f x). Qed.
End Props.

Print Assumptions C98_accepted_partial.
Print Assumptions C98_roa_accepted_partial.
Print Assumptions C98_named_files_found_partial.
Print Assumptions C98_entries_found_partial.
Print Assumptions C98_exported_partial.

(** The ROA of the small repository is three certificates below its locator. *)
Example C98_example :
  explores (r_iter [] (blob 21) 100) (init_mgr 50 r_init) wP (snd (r_trace [] (blob 21) 100)) /\
  w_honest w_root x_root /\ w_honest w_a x_a /\ w_honest w_o (roa_cert x_roa) /\ sound_roa x_roa /\
  contents r_disk r_roa w_o x_roa /\ valid_roa (m_v (snd (r_trace [] (blob 21) 100))) x_roa.
Proof.
  destruct (r_explored [] (blob 21) 100) as (EX & _); [vm_compute; reflexivity|]. rewrite wP_is in EX.
  assert (C : contents r_disk r_roa w_o x_roa) by (exists (blob 21), (blob 21); split; [exact h_o|vm_compute; reflexivity]).
  split; [exact EX|]. split; [exact w_honest_root|]. split; [exact w_honest_a|]. split; [exact w_honest_o|]. split; [exact w_sound|]. split; [exact C|].
  exact (C98_roa_accepted_partial _ _ _ _ _ _ _ _ _ _ _ _ _ _ _ _ 50 wP _ w_o x_roa EX eq_refl C w_honest_o w_sound).
Qed.
Example C98_undisputed_example : undisputed wP w_a_mft (mkFile [] (str "o.roa") (determine_type (str "o.roa")) false (Some (blob 21))).
Proof. exact w_undisputed. Qed.

(** Without the condition on key identifiers it fails: the ROA of A is accepted,
    but not if B, elsewhere, publishes a certificate with the key identifier of
    that ROA, although the signature on it does not verify. *)
Theorem C98_key_taken_refuted :
  (forall k, k = str "p" \/ k = str "O" ->
     explores (t_iter k) (init_mgr 50 r_init) (fst (t_trace k)) (snd (t_trace k)) /\ m_queue (snd (t_trace k)) = []) /\
  v_validroa (m_v (snd (t_trace (str "p")))) (str "O") <> None /\
  v_validroa (m_v (snd (t_trace (str "O")))) (str "O") = None /\
  v_valid (m_v (snd (t_trace (str "O")))) (str "A") <> None /\
  t_sig (x_b []) (mft_cert (x_mft (str "O") (str "B") [] 0 100)) = false.
Proof. split; [exact t_runs|exact t_suppressed]. Qed.
Print Assumptions C98_key_taken_refuted.
