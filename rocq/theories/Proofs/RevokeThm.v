(** Revocation from the octets in the cache to the exported list. *)
From Coq Require Import List ZArith Lia Bool.
From Verif.Model Require Import Base NetIP CertRes Roa Str Ber Tal Validator Explore ObjDer TalText FileDecoders NetText Output X509 CrlMake.
From Verif.Spec Require Import Trust Discovery CtSpec OutputSpec EndSpec CrlSpec X509Spec CrlMakeSpec RevokeSpec.
From Verif.Proofs Require Import OutputProofs ExportProofs EndThm CrlKey CrlMakeThm RevokeProofs.
Import ListNotations.
Open Scope Z_scope.

Section Exported.
Variable sha256 : bytes -> bytes.
Hypothesis sha_len : forall x, List.length (sha256 x) = 32%nat.
Variable x509_parse : bytes -> option (cert * list (list Z * bytes)).
Variable strict : bool.
Variable sig_ok : cert -> cert -> bool.
Variable crl_sig_ok : cert -> crl -> bool.
Variable dec_crl : bytes -> option crl.
Variable hex_sha1 : bytes -> bytes.
Variable disk : bytes -> option bytes.
Variable synced : bytes -> bool.
Variable clock : nat -> Z * Z.
Variable strict_manifests : bool.
Variable strict_hash : bool.
Variable add_invalid : bool.
Notation dec_cert := (file_cert x509_parse).
Notation explored_all := (explored_all sha256 x509_parse strict sig_ok crl_sig_ok dec_crl hex_sha1 disk synced clock
  strict_manifests strict_hash add_invalid).
Notation explore_iter := (explore_iter sig_ok crl_sig_ok file_tal dec_cert (file_roa sha256 x509_parse strict)
  (file_mft sha256 x509_parse strict) dec_crl hex_sha1 disk synced sha256 clock strict_manifests strict_hash add_invalid).
Notation bad P v := (fun c => revoked disk sha256 dec_cert dec_crl crl_sig_ok P v c /\ ~ anchor_file disk dec_cert P c).
Hypothesis cache : octet_cache disk.

Theorem exported_clean : forall xs tals filt names paths now dur L, explored_all xs tals ->
  (forall q, In q xs -> serials_apart (m_v (x_mgr q))) ->
  generate_list filt names paths tals now dur = Ret L -> forall r, In r (l_data L) ->
  exists j q x e, nth_error xs j = Some q /\ valid_roa (m_v (x_mgr q)) x /\ In e (roa_entries x) /\
    r = mkJ (ipnet_text (re_net e)) (re_maxlen e mod 256) ([65; 83] ++ dec (roa_asn x)) (tal_name names paths j) /\
    clean_chain sig_ok (tal_anchor file_tal dec_cert hex_sha1 disk (x_files q)) (bad (x_files q) (m_v (x_mgr q)))
      (m_v (x_mgr q)) (roa_cert x).
Proof using sha_len cache.
  intros xs tals filt names paths now dur L X SA G r I.
  destruct (explored_produced sha256 sha_len x509_parse strict sig_ok crl_sig_ok dec_crl hex_sha1 disk synced clock
    strict_manifests strict_hash add_invalid cache _ _ X) as (rs & P & M).
  destruct (exported_from _ _ _ _ _ _ _ _ _ _ _ _ _ _ _ _ P G r I) as (j & k & x & l & e & N & RN & VR & V & IE & IR & -> & _).
  assert (NQ : exists q, nth_error xs j = Some q /\ m_v (x_mgr q) = run_state k).
  { assert (K : nth_error (map (fun q => m_v (x_mgr q)) xs) j = Some (run_state k)) by (rewrite <- M, nth_error_map, N; reflexivity).
    rewrite nth_error_map in K. destruct (nth_error xs j) as [q|]; [|discriminate]. exists q. split; auto. cbn in K. congruence. }
  destruct NQ as (q & NQ & VQ). rewrite <- VQ in VR.
  assert (EQ : explores explore_iter (init_mgr (x_now q) (x_init q)) (x_files q) (x_mgr q) /\ only_locators (x_init q)).
  { clear - X NQ. revert j NQ. induction X as [|q' t xs tals (E & O & L) F IH]; intros [|j] NQ; cbn in NQ; try discriminate.
    - assert (q' = q) by congruence. subst. auto.
    - eauto. }
  destruct EQ as (E & OL). exists j, q, x, e. split; [exact NQ|]. split; [exact VR|]. split; [exact IR|]. split; [reflexivity|].
  refine (proj2 (clean_chains sig_ok crl_sig_ok file_tal dec_cert (file_roa sha256 x509_parse strict)
    (file_mft sha256 x509_parse strict) dec_crl hex_sha1 disk synced sha256 clock strict_manifests strict_hash add_invalid
    (x_init q) (x_now q) (x_files q) (x_mgr q) E _ _) x VR).
  - intros y Y. apply (OL y Y).
  - apply SA. eapply nth_error_In; eauto.
Qed.
End Exported.

(** * Lists that the library makes *)
Section Made.
Variable sha256 : bytes -> bytes.
Variable rsa_sign : bytes -> option bytes.
Variable more : bytes -> bool.
Variable other_sig : list Z * bytes -> bytes -> bytes -> bytes -> bool.
Variable disk : bytes -> option bytes.
Variable dec_cert : bytes -> option cert.
Notation crl_signed := (x509_crl_signed sha256 other_sig).

Theorem made_revokes : forall P v f raw o b ca c, In f P -> f_type f = TCrl ->
  Discovery.holds disk f raw b -> (forall h, fd_hash (f_desc f) = Some h -> sha256 raw = h) ->
  order_ok o -> create_crl sha256 rsa_sign o = Some b -> Z.of_nat (List.length b) < 2 ^ 31 -> more b = false ->
  (forall m, bytes_ok (sha256 m) = true) -> or_ski o <> [] ->
  publishes disk dec_cert P v (or_ski o) f -> valid_cert v ca -> c_ski ca = or_ski o -> signs_for sha256 rsa_sign ca ->
  c_aki c = or_ski o -> In (c_serial c) (serials o) ->
  revoked disk sha256 dec_cert (x509_crl more) crl_signed P v c.
Proof.
  intros P v f raw o b ca c FP FT HD HH OK CR LB MO SO NE PU VA KA SG CK IN.
  destruct (list_named sha256 rsa_sign more other_sig o b OK CR LB MO) as (l & X & B & SE & NI & _).
  exists f, l, ca. split; [exact FP|]. split; [exact FT|]. split; [exists raw, b; auto|]. split; [exists raw, b; auto|].
  rewrite CK. split; [exact PU|]. split; [exact VA|]. split; [exact KA|]. split; [now apply NI|]. split.
  - exact (list_signed sha256 rsa_sign more other_sig o b l ca OK CR LB SO B SG).
  - now rewrite SE.
Qed.
End Made.
