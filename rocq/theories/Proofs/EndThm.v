(** From the octets in the cache to the exported list. *)
From Coq Require Import List ZArith Lia Bool.
From Verif.Model Require Import Base NetIP CertRes Roa Str Ber GoTime Der Tal Validator Explore ObjDer TalText TalDer FileDecoders NetText Output.
From Verif.Spec Require Import B64 Bits IpExtSpec TimeSpec ContentSpec SignedSpec TalSpec Trust Discovery CtSpec OutputSpec EndSpec.
From Verif.Proofs Require Import StrProofs ContentProofs SignedThm TalDerProofs ExploreThm ExportProofs Provenance.
Import ListNotations.
Open Scope Z_scope.

Lemma chain_to_mono : forall sig_ok (A B : cert -> Prop) v, (forall c, A c -> B c) ->
  forall c, chain_to sig_ok A v c -> chain_to sig_ok B v c.
Proof.
  intros sig_ok A B v H c K. induction K as [c V W X|c p V W E S K IH].
  - apply ct_anchor; auto.
  - eapply ct_link; eauto.
Qed.

Section End.
Variable sha256 : bytes -> bytes.
Hypothesis sha_len : forall x, length (sha256 x) = 32%nat.
Variable x509_parse : bytes -> option (cert * list (list Z * bytes)).
Variable strict : bool.
Variable sig_ok : cert -> cert -> bool.
Variable crl_sig_ok : cert -> crl -> bool.
Variable dec_crl : bytes -> option crl.
Variable hex_sha1 : bytes -> bytes.
Variable disk : bytes -> option bytes.
Variable synced : bytes -> bool.
Variable clock : nat -> Z * Z.
Variable strict_manifests : bool.
Variable strict_hash : bool.
Variable add_invalid : bool.
Notation dec_cert := (file_cert x509_parse).
Notation dec_roa := (file_roa sha256 x509_parse strict).
Notation dec_mft := (file_mft sha256 x509_parse strict).
Notation explore_iter := (explore_iter sig_ok crl_sig_ok file_tal dec_cert dec_roa dec_mft dec_crl hex_sha1 disk synced sha256 clock strict_manifests strict_hash add_invalid).
Notation run := (run sig_ok crl_sig_ok file_tal dec_cert dec_roa dec_mft dec_crl hex_sha1).
Hypothesis cache : octet_cache disk.

Lemma locator_of_anchor : forall P c, tal_anchor file_tal dec_cert hex_sha1 disk P c -> locator_names dec_cert hex_sha1 disk P c.
Proof using All.
  intros P c (f & p & t & n & e & H1 & H2 & H3 & H4 & H5 & (raw & d & (D1 & D2) & T) & H7 & H8 & H9).
  rewrite H5 in D2. cbn [is_tal] in D2. subst d. unfold file_tal in T.
  destruct (tal_accepted _ _ T) as (key & d & alg & b & A1 & A2 & A3 & [(-> & _ & n' & e' & A4 & A5)|(_ & _ & A4)]); [|congruence].
  assert (n' = n /\ e' = e) as [-> ->] by (rewrite A4 in H8; inversion H8; auto).
  exists f, p, raw, t, key, d, b, n, e. repeat (split; [assumption|]). assumption.
Qed.

Lemma signed_file : forall f raw d, f_type f <> TTal -> Discovery.holds disk f raw d ->
  bytes_ok d = true /\ Z.of_nat (length d) < 2 ^ 46.
Proof using All.
  intros f raw d T (D1 & D2). destruct (is_tal (f_type f)) eqn:E; [destruct (f_type f); try discriminate; congruence|].
  destruct (cache _ _ D1) as (O & L). split; [exact (ber2der_ok _ _ O D2)|auto].
Qed.

Theorem valid_roa_octets : forall now init P s x, explores explore_iter (init_mgr now init) P s -> only_locators init ->
  valid_roa (m_v s) x ->
  chain_to sig_ok (locator_names dec_cert hex_sha1 disk P) (m_v s) (roa_cert x) /\
  exists f raw d, In f P /\ f_type f = TRoa /\ Discovery.holds disk f raw d /\
    signed_roa sha256 dec_cert d (roa_asn x) (roa_entries x) (roa_cert x) /\
    exists p rawp dp h, f_parent f = Some p /\ In p P /\ f_type p = TMft /\ Discovery.holds disk p rawp dp /\
      manifest_lists sha256 dec_cert (add_invalid = false) dp (f_path f) h /\ (strict_hash = true -> sha256 raw = h).
Proof using All.
  intros now init P s x H OL VR. split.
  { eapply chain_to_mono; [apply locator_of_anchor|].
    apply (explored_chain _ _ _ _ _ _ _ _ _ _ _ _ _ _ _ _ _ _ _ H); [intros y Y; apply (OL y Y)|exact VR]. }
  assert (IN : In (ORoa x) (map r_obj (v_heap (m_v s)))).
  { destruct VR as (a & _ & r & N & O). rewrite <- O. apply in_map. eapply nth_error_In; eauto. }
  destruct (explored_objs _ _ _ _ _ _ _ _ _ _ _ _ _ _ _ _ _ _ _ _ H IN) as (f & raw & d & FP & HD & HK & FT & DR).
  exists f, raw, d. split; [exact FP|]. split; [exact FT|]. split; [exact HD|].
  destruct (explored_run _ _ _ _ _ _ _ _ _ _ _ _ _ _ _ _ _ _ _ H) as (ops & R & _).
  destruct (valid_roa_facts _ _ _ _ _ _ _ _ _ _ _ _ R VR) as (_ & _ & _ & INN).
  destruct (signed_file f raw d ltac:(congruence) HD) as (O & L).
  split.
  - unfold file_roa in DR. destruct (decode_roa sha256 x509_parse strict d) as [[[r z]|]|] eqn:E; try discriminate.
    assert (r = x) by congruence. subst r.
    assert (L' : Z.of_nat (length d) < 2 ^ 48) by (eapply Z.lt_trans; [exact L|reflexivity]).
    destruct (roa_written sha256 sha_len x509_parse strict d x z O L' E) as (o & content & cert & signers & _ & S & RO & DC & SG).
    destruct (SG INN) as (n & p & K & SC). exists o, content, cert, signers, n, p. auto.
  - destruct (explored_roa _ _ _ _ _ _ _ _ _ _ _ _ _ _ _ _ _ _ _ f H FP FT ltac:(intros y Y; apply (OL y Y)))
      as (p & rawp & dp & m & h & PA & PP & PT & PD & _ & DM & LS & FH & MI).
    exists p, rawp, dp, h. split; [exact PA|]. split; [exact PP|]. split; [exact PT|]. split; [exact PD|].
    split; [|intros SH; exact (HK SH h FH)].
    destruct (signed_file p rawp dp ltac:(congruence) PD) as (O2 & L2).
    unfold file_mft in DM. destruct (decode_mft sha256 x509_parse strict dp) as [[[r z]|]|] eqn:E; try discriminate.
    assert (r = m) by congruence. subst r.
    destruct (mft_written sha256 sha_len x509_parse strict dp m z O2 L2 E)
      as (o & inside & content & cert & signers & n & _ & S & B & MO & _ & _ & _ & _ & MF & DC & SG).
    rewrite MF in LS. apply in_map_iff in LS. destruct LS as ((nm & hash) & EQ & LI). cbn [fst snd] in EQ.
    assert (nm = f_path f) by congruence. assert (bs_bytes hash = h) by congruence. subst nm.
    exists o, inside, content, cert, signers, n, (mc_this z), (mc_next z), (mc_alg z), (mc_files z), hash, (mft_cert m).
    repeat (split; [assumption|]). intros AI. exact (SG (MI AI)).
Qed.

(** Explorations, one per locator, and the ROAs handed to the export. *)
Definition explored_all (xs : list exploration) (tals : list (list roa)) : Prop :=
  Forall2 (fun q t => explores explore_iter (init_mgr (x_now q) (x_init q)) (x_files q) (x_mgr q) /\
                      only_locators (x_init q) /\ lists_valid_roas (m_v (x_mgr q)) t) xs tals.

Lemma explored_produced : forall xs tals, explored_all xs tals ->
  exists rs, produced run rs tals /\ map run_state rs = map (fun q => m_v (x_mgr q)) xs.
Proof using All.
  intros xs tals H. induction H as [|q t xs tals (E & O & L) F IH].
  - exists []. split; [constructor|reflexivity].
  - destruct IH as (rs & P & M). destruct (explored_run _ _ _ _ _ _ _ _ _ _ _ _ _ _ _ _ _ _ _ E) as (ops & R & _).
    exists ((ops, x_now q, m_v (x_mgr q)) :: rs). split; [constructor; auto|cbn; now rewrite M].
Qed.

Theorem exported_octets : forall xs tals filt names paths now dur L, explored_all xs tals ->
  generate_list filt names paths tals now dur = Ret L -> forall r, In r (l_data L) ->
  exists j q f raw d asn entries e c, nth_error xs j = Some q /\
    In f (x_files q) /\ f_type f = TRoa /\ Discovery.holds disk f raw d /\
    signed_roa sha256 dec_cert d asn entries c /\ In e entries /\
    r = mkJ (ipnet_text (re_net e)) (re_maxlen e mod 256) ([65; 83] ++ dec asn) (tal_name names paths j) /\
    chain_to sig_ok (locator_names dec_cert hex_sha1 disk (x_files q)) (m_v (x_mgr q)) c /\
    exists p rawp dp h, f_parent f = Some p /\ In p (x_files q) /\ f_type p = TMft /\ Discovery.holds disk p rawp dp /\
      manifest_lists sha256 dec_cert (add_invalid = false) dp (f_path f) h /\ (strict_hash = true -> sha256 raw = h).
Proof using All.
  intros xs tals filt names paths now dur L X G r I. destruct (explored_produced _ _ X) as (rs & P & M).
  destruct (exported_from _ _ _ _ _ _ _ _ _ _ _ _ _ _ _ _ P G r I) as (j & k & x & l & e & N & RN & VR & V & IE & IR & -> & _).
  assert (NQ : exists q, nth_error xs j = Some q /\ m_v (x_mgr q) = run_state k).
  { assert (K : nth_error (map (fun q => m_v (x_mgr q)) xs) j = Some (run_state k)) by (rewrite <- M, nth_error_map, N; reflexivity).
    rewrite nth_error_map in K. destruct (nth_error xs j) as [q|]; [|discriminate]. exists q. split; auto. cbn in K. congruence. }
  destruct NQ as (q & NQ & VQ). rewrite <- VQ in VR.
  assert (EQ : explores explore_iter (init_mgr (x_now q) (x_init q)) (x_files q) (x_mgr q) /\ only_locators (x_init q)).
  { clear - X NQ. revert j NQ. induction X as [|q' t xs tals (E & O & L) F IH]; intros [|j] NQ; cbn in NQ; try discriminate.
    - assert (q' = q) by congruence. subst. auto.
    - eauto. }
  destruct EQ as (E & OL). destruct (valid_roa_octets _ _ _ _ _ E OL VR) as (CH & f & raw & d & H1 & H2 & H3 & H4 & H5).
  exists j, q, f, raw, d, (roa_asn x), (roa_entries x), e, (roa_cert x). repeat (split; [assumption || reflexivity|]). exact H5.
Qed.
End End.
