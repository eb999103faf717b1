(** Certificates: from octets to what the validator uses, and chains of them. *)
From Coq Require Import Lia ZifyBool ZifyNat Bool.
From Verif.Model Require Import Base Str NetIP CertRes Roa Ber Asn1 GoTime Der Tal Cms Validator Explore ObjDer TalText TalDer FileDecoders NetText Output X509.
From Verif.Spec Require Import Addr Resources Bits BerSpec IpExtSpec TimeSpec ContentSpec SignedSpec B64 TalSpec ObjSpec Trust Discovery OutputSpec CtSpec EndSpec X509Spec ChainSpec.
From Verif.Proofs Require Import NetIPProofs StrProofs BerProofs DerBytes ObjBytes ContentProofs SignedProofs SignedThm TimeProofs
  ValidatorFacts ExploreThm Provenance EndThm X509Bytes X509Proofs.

Lemma time_calendar : forall e t, time_value e t -> calendar t.
Proof.
  intros e t [k e' t' Ck Ut|k e' t' Ck Ut]; [destruct Ut as (y & r & yy & se & Ut)|destruct Ut as (y & r & Ut)]; intuition.
Qed.

Lemma certificate_times : forall d x, certificate_octets d x -> calendar (xc_before x) /\ calendar (xc_after x).
Proof.
  intros d x H. destruct H as [e1 e2 e3 junk d alg c x C T A C3 B3].
  destruct T as [ev es ea ei et eu ek f1 f2 ex junk' c' v serial al iss t1 t2 sub kalg key exts sig tbs Ct V Cs N A1 -> Si Va -> Su K U1 U2 W].
  cbn [xc_before xc_after]. destruct Va as [e e4 e5 junk2 t1 t2 Cv T1 T2]. split; eapply time_calendar; eassumption.
Qed.

Section Counted.
Variable all_versions : bool.
Lemma extensions_counted : forall x, counted all_versions x (extensions all_versions x).
Proof.
  intros x. unfold counted, extensions. destruct all_versions; cbn [orb]; [left; auto|].
  destruct (xc_version x =? 2) eqn:E; [left; split; [right; lia|reflexivity]|right; split; [split; [reflexivity|lia]|reflexivity]].
Qed.
Lemma counted_one : forall x l, counted all_versions x l -> l = extensions all_versions x.
Proof.
  intros x l. unfold counted, extensions. destruct all_versions; cbn [orb].
  - intros [[_ ->]|[[X _] _]]; [reflexivity|discriminate].
  - intros [[[X|X] ->]|[[_ X] ->]]; [discriminate| |]; destruct (xc_version x =? 2) eqn:E; try reflexivity; lia.
Qed.
Lemma counted_ok : forall x, Forall (fun a => bytes_ok (e_value a) = true) (xc_exts x) ->
  Forall (fun a => bytes_ok (e_value a) = true) (extensions all_versions x).
Proof. intros x H. unfold extensions. destruct (_ || _); [exact H|constructor]. Qed.

End Counted.

Section Contents.
Variable all_versions keep : bool.
Variable points : list extension -> list bytes.
Variable more : bytes -> bool.
Notation x509 := (x509_cert all_versions keep points more).

(** What is read from a certificate *)
Lemma cert_octets : forall d c, bytes_ok d = true -> file_cert x509 d = Some c ->
  exists x, x509_read d = Some x /\ certificate_read all_versions keep d x c.
Proof.
  intros d c O H. unfold file_cert, decode_certificate in H. destruct (x509 d) as [[c0 exts]|] eqn:E; [|discriminate].
  unfold x509_cert in E. destruct (x509_read d) as [x|] eqn:R; [|discriminate].
  destruct (key_of x) as [k|] eqn:K; [|discriminate].
  destruct (add_facts keep (extensions all_versions x) no_facts) as [f|] eqn:F; [|discriminate].
  destruct (more d); [discriminate|]. apply some_eq in E.
  assert (E1 : exts = map pair_of (extensions all_versions x)) by (symmetry; exact (f_equal snd E)).
  apply (f_equal fst) in E. cbn [fst] in E. subst exts.
  pose proof (certificate_grammar d x O R) as G. destruct (certificate_ok d x G O) as (XO & WK & WS).
  pose proof (counted_ok all_versions x XO) as CO. destruct (certificate_times d x G) as (T1 & T2).
  destruct (decode_extensions_inv _ _ _ CO H) as (S1 & S2 & S3 & EQ).
  destruct (add_facts_inv keep _ _ _ CO F) as (F1 & F2 & F3 & F4). cbn [fa_ski fa_aki fa_usage fa_basic no_facts] in *.
  exists x. split; [reflexivity|]. exists (extensions all_versions x). split; [exact G|]. split; [apply extensions_counted|].
  rewrite EQ. clear EQ H. revert S1 S2 S3. rewrite <- E. clear E c0. intros S1 S2 S3.
  split; [reflexivity|]. split; [reflexivity|]. split; [exact (unix_instant _ T1)|]. split; [exact (unix_instant _ T2)|].
  split; [exact F1|]. split; [exact (authority_whole _ _ _ F4)|]. split; [exact S1|]. split; [exact S2|]. split; [exact S3|].
  change (c_alg _) with (key_number (fst (xc_key_alg x))). change (c_key _) with k.
  pose proof (key_number_rsa (fst (xc_key_alg x))) as KN.
  destruct (key_of_inv x k WK K) as [(n & e & -> & RC)|(NR & l & A & ->)].
  - left. split; [|eauto]. destruct RC as (l & RC & _). apply KN in RC. lia.
  - right. split; [|eauto]. intros X. apply NR, KN. lia.
Qed.

Theorem certificate_contents : forall d c, bytes_ok d = true -> file_cert x509 d = Some c ->
  exists x, certificate_read all_versions keep d x c.
Proof. intros d c O H. destruct (cert_octets d c O H) as (x & _ & K). eauto. Qed.
End Contents.

Section Certificates.
Variable all_versions keep : bool.
Variable sha256 : bytes -> bytes.
Variable other_sig : list Z * bytes -> bytes -> bytes -> bytes -> bool.
Variable excused : bytes -> bool.
Notation signed := (x509_signed all_versions keep sha256 other_sig excused).

Lemma check_signature_spec : forall x alg tbs sig, wf_bits (xc_key x) -> wf_bits sig ->
  check_signature sha256 other_sig x alg tbs (right_align sig) = true -> signed_by sha256 other_sig x alg tbs sig.
Proof.
  intros x alg tbs sig WK WS H. unfold check_signature in H. exists (right_align sig). split; [now apply right_align_spec|].
  destruct (oid_eqb_spec (fst alg) oid_sha256_rsa) as [E|E]; [|right; auto]. left. split; [exact E|].
  destruct (key_of x) as [k|] eqn:K; [|discriminate]. destruct (key_of_inv x k WK K) as [(n & e & -> & RC)|(_ & l & _ & ->)]; [|discriminate].
  destruct e as [|e|e]; try discriminate. exists n, (Zpos e). split; [exact RC|]. destruct RC as (l & _ & _ & _ & _ & N & _).
  now apply rsa_verify_spec.
Qed.

Lemma no_bits : forall u, existsb (fun b => b) u = false -> Forall (fun k => k = false) u.
Proof.
  induction u as [|b u IH]; intros H; [constructor|]. cbn [existsb] in H. apply orb_false_iff in H as [H1 H2]. constructor; auto.
Qed.

(** What the check of a signature establishes *)
Lemma issued_read : forall p c y x, bytes_ok (c_body p) = true -> bytes_ok (c_body c) = true -> signed p c = true ->
  x509_read (c_body p) = Some y -> x509_read (c_body c) = Some x -> issued all_versions sha256 other_sig excused y x.
Proof.
  intros p c y x Op Oc H Ry Rx. unfold x509_signed in H. rewrite Ry, Rx in H.
  pose proof (certificate_grammar _ _ Op Ry) as Gy. pose proof (certificate_grammar _ _ Oc Rx) as Gx.
  destruct (certificate_ok _ _ Gy Op) as (XY & WK & _). destruct (certificate_ok _ _ Gx Oc) as (_ & _ & WS).
  unfold check_from in H. destruct (add_facts keep (extensions all_versions y) no_facts) as [f|] eqn:F; [|discriminate].
  destruct (add_facts_inv keep _ _ _ (counted_ok all_versions y XY) F) as (_ & F2 & F3 & _). cbn [fa_usage fa_basic no_facts] in *.
  apply andb_true_iff in H as [H H4]. apply andb_true_iff in H as [H H3]. apply andb_true_iff in H as [H1 H2].
  split; [|split; [|exact (check_signature_spec _ _ _ _ WK WS H4)]].
  - apply orb_true_iff in H1 as [H1|H1]; [left|right; exact H1].
    exists (extensions all_versions y), (fa_basic f). split; [apply extensions_counted|]. split; [exact F3|].
    destruct (fa_basic f) as [[|]|]; [now left|discriminate|]. right. split; [reflexivity|].
    destruct (xc_version y =? 2) eqn:E; [discriminate|lia].
  - exists (extensions all_versions y), (fa_usage f). split; [apply extensions_counted|]. split; [exact F2|].
    apply orb_true_iff in H2 as [H2|H2]; [left|right; exact H2]. apply no_bits. now destruct (existsb (fun b => b) (fa_usage f)).
Qed.

Theorem issued_octets : forall p c, bytes_ok (c_body p) = true -> bytes_ok (c_body c) = true -> signed p c = true ->
  exists y x, certificate_octets (c_body p) y /\ certificate_octets (c_body c) x /\
    issued all_versions sha256 other_sig excused y x.
Proof.
  intros p c Op Oc H. pose proof H as H0. unfold x509_signed in H0.
  destruct (x509_read (c_body p)) as [y|] eqn:Ry; [|discriminate]. destruct (x509_read (c_body c)) as [x|] eqn:Rx; [|discriminate].
  exists y, x. split; [now apply certificate_grammar|]. split; [now apply certificate_grammar|].
  exact (issued_read _ _ _ _ Op Oc H Ry Rx).
Qed.

End Certificates.

Lemma embedded_ok : forall d o content cert signers, signed_object d o content cert signers -> bytes_ok d = true ->
  bytes_ok cert = true.
Proof.
  intros d o content cert signers H O.
  destruct H as [d e e0 lw n es junk rest c0 oid0 ev cv v da ds en ce cr si ss o content cert signers junk' -> C _ _ _ _ C2 _ _ _ _ _ M _ _ _].
  apply bytes_ok_app in O as [O _]. pose proof (coded_ok _ _ _ C O) as Oc. apply bytes_ok_app in Oc as [_ Oc].
  apply bytes_ok_cons in Oc as [_ Oc]. apply bytes_ok_app in Oc as [_ Oc]. apply bytes_ok_app in Oc as [Oe _].
  pose proof (coded_ok _ _ _ C2 Oe) as Os. do 3 apply bytes_ok_app in Os as [_ Os]. apply bytes_ok_app in Os as [Os _].
  destruct M as [|tg c e1 (l & _ & -> & _) _ _]; [reflexivity|]. do 2 apply bytes_ok_app in Os as [_ Os]. exact Os.
Qed.

Section Chain.
Variable sha256 : bytes -> bytes.
Hypothesis sha_len : forall x, length (sha256 x) = 32%nat.
Variable all_versions keep : bool.
Variable points : list extension -> list bytes.
Variable more : bytes -> bool.
Variable other_sig : list Z * bytes -> bytes -> bytes -> bytes -> bool.
Variable excused : bytes -> bool.
Variable strict : bool.
Variable crl_sig_ok : cert -> crl -> bool.
Variable dec_crl : bytes -> option crl.
Variable hex_sha1 : bytes -> bytes.
Variable disk : bytes -> option bytes.
Variable synced : bytes -> bool.
Variable clock : nat -> Z * Z.
Variable strict_manifests : bool.
Variable strict_hash : bool.
Variable add_invalid : bool.
Notation x509 := (x509_cert all_versions keep points more).
Notation signed := (x509_signed all_versions keep sha256 other_sig excused).
Notation explore_iter := (explore_iter signed crl_sig_ok file_tal (file_cert x509) (file_roa sha256 x509 strict)
  (file_mft sha256 x509 strict) dec_crl hex_sha1 disk synced sha256 clock strict_manifests strict_hash add_invalid).
Notation explored_all := (explored_all sha256 x509 strict signed crl_sig_ok dec_crl hex_sha1 disk synced clock
  strict_manifests strict_hash add_invalid).
Hypothesis cache : octet_cache disk.
Notation certified := (certified all_versions keep sha256 other_sig excused).

(** Every valid certificate is among the files. *)
Lemma valid_found : forall now init P s c, explores explore_iter (init_mgr now init) P s -> valid_cert (m_v s) c ->
  exists x, found_in disk P (c_body c) /\ bytes_ok (c_body c) = true /\ x509_read (c_body c) = Some x /\
    certificate_read all_versions keep (c_body c) x c.
Proof using All.
  intros now init P s c H (a & _ & CA).
  assert (IN : exists o, In o (map r_obj (v_heap (m_v s))) /\
    match o with OCert c' => c' = c | _ => False end).
  { destruct CA as (r & N & O). exists (OCert c). split; [|reflexivity]. rewrite <- O. apply in_map. eapply nth_error_In; eauto. }
  destruct IN as (o & IN & OC). destruct o; try contradiction. subst.
  destruct (explored_objs _ _ _ _ _ _ _ _ _ _ _ _ _ _ _ _ _ _ _ _ H IN) as (f & raw & d & FP & HD & _ & BR).
  assert (FIN : forall b, bytes_ok b = true -> file_cert x509 b = Some c -> found_in disk P b ->
    exists x, found_in disk P (c_body c) /\ bytes_ok (c_body c) = true /\ x509_read (c_body c) = Some x /\
      certificate_read all_versions keep (c_body c) x c).
  { intros b Ob DC FI. destruct (cert_octets _ _ _ _ _ _ Ob DC) as (x & R & CR).
    pose proof CR as (l & _ & _ & EB & _). rewrite EB. exists x. auto. }
  assert (NT : f_type f <> TTal) by (unfold brings in BR; destruct (f_type f); congruence).
  destruct (signed_file sha256 sha_len x509 strict signed crl_sig_ok dec_crl hex_sha1 disk synced clock strict_manifests strict_hash add_invalid cache f raw d NT HD) as (O & L).
  unfold brings in BR. destruct (f_type f) eqn:FT; try contradiction.
  - apply (FIN d O BR). exists f, raw, d. split; [exact FP|]. split; [exact HD|]. left. auto.
  - destruct BR as (m & DM & MC). unfold file_mft in DM.
    destruct (decode_mft sha256 x509 strict d) as [[[r z]|]|] eqn:E; try discriminate. apply some_eq in DM. subst r.
    destruct (mft_written sha256 sha_len x509 strict d m z O L E)
      as (o & inside & content & cert & signers & n & _ & S & _ & _ & _ & _ & _ & _ & _ & DC & _). rewrite MC in DC.
    apply (FIN cert (embedded_ok _ _ _ _ _ S O) DC). exists f, raw, d. split; [exact FP|]. split; [exact HD|].
    right. split; [auto|]. exists o, inside, signers. exact S.
  - destruct BR as (x & DR & XC). unfold file_roa in DR.
    destruct (decode_roa sha256 x509 strict d) as [[[r z]|]|] eqn:E; try discriminate. apply some_eq in DR. subst r.
    assert (L' : Z.of_nat (length d) < 2 ^ 48) by (eapply Z.lt_trans; [exact L|reflexivity]).
    destruct (roa_written sha256 sha_len x509 strict d x z O L' E) as (o & content & cert & signers & _ & S & _ & DC & _).
    rewrite XC in DC.
    apply (FIN cert (embedded_ok _ _ _ _ _ S O) DC). exists f, raw, d. split; [exact FP|]. split; [exact HD|].
    right. split; [auto|]. exists o, content, signers. exact S.
Qed.

Lemma explored_time : forall now init P s, explores explore_iter (init_mgr now init) P s -> v_time (m_v s) = now.
Proof using All.
  intros now init P s H. destruct (explored_run _ _ _ _ _ _ _ _ _ _ _ _ _ _ _ _ _ _ _ H) as (ops & R & _).
  exact (proj1 (chain_of_valid _ _ _ _ _ _ _ _ _ _ _ R)).
Qed.

(** Chains of the validator are chains of octets. *)
Lemma chain_octets : forall now init P s c, explores explore_iter (init_mgr now init) P s ->
  chain_to signed (locator_names (file_cert x509) hex_sha1 disk P) (m_v s) c ->
  exists x, x509_read (c_body c) = Some x /\ certificate_read all_versions keep (c_body c) x c /\
    certified (found_in disk P) (anchored hex_sha1 disk P) now (c_body c) x.
Proof using All.
  intros now init P s c H K. pose proof (explored_time _ _ _ _ H) as TM.
  induction K as [c V W A|c p V W E S K (y & Ry & CY & IH)];
    destruct (valid_found _ _ _ _ _ H V) as (x & FI & O & R & CR); exists x; (split; [exact R|]); (split; [exact CR|]);
    pose proof CR as (l & G & CO & _ & _ & T1 & T2 & _ & AK & _);
    assert (IT : in_time x now) by (unfold in_window in W; rewrite TM, T1, T2 in W; exact W).
  - apply certified_anchor; auto.
    destruct A as (f & p & rawp & t & key & k & b & n & e & FP & FT & (raw & d & HD & DC) & PP & PT & PD & TR & B & KI & RK & U & KE).
    assert (NT : f_type f <> TTal) by congruence.
    destruct (signed_file sha256 sha_len x509 strict signed crl_sig_ok dec_crl hex_sha1 disk synced clock strict_manifests strict_hash add_invalid cache f raw d NT HD) as (Od & _).
    destruct (cert_octets _ _ _ _ _ _ Od DC) as (x' & R' & (l' & _ & _ & EB & _ & _ & _ & _ & _ & _ & _ & _ & KX)).
    rewrite EB in *. assert (x' = x) by congruence. subst x'.
    destruct KX as [(_ & n' & e' & K1 & K2)|(_ & _ & k' & _ & K1)]; [|congruence].
    assert (n' = n /\ e' = e) as [-> ->] by (rewrite K1 in KE; inversion KE; auto).
    exists f, p, raw, rawp, t, key, k, b, n, e. repeat (split; [assumption|]). assumption.
  - assert (VP : valid_cert (m_v s) p) by (destruct K; assumption).
    destruct (valid_found _ _ _ _ _ H VP) as (y' & _ & Op & Ry' & _).
    destruct CY as (ly & GY & CY & _ & _ & _ & _ & SK & _).
    eapply certified_link; eauto.
    + exists l, ly, (c_aki c). split; [exact CO|]. split; [exact CY|]. split; [exact AK|]. rewrite E. exact SK.
    + exact (issued_read _ _ _ _ _ _ _ _ _ Op O S Ry R).
Qed.

Lemma signed_certified : forall now init P s d asn entries c, explores explore_iter (init_mgr now init) P s ->
  signed_roa sha256 (file_cert x509) d asn entries c ->
  chain_to signed (locator_names (file_cert x509) hex_sha1 disk P) (m_v s) c -> bytes_ok d = true ->
  certified_roa all_versions keep sha256 other_sig excused (found_in disk P) (anchored hex_sha1 disk P) now d asn entries.
Proof using All.
  intros now init P s d asn entries c H (o & content & cert & signers & n & p & S & RO & DC & KC & SC) CH O.
  destruct (chain_octets _ _ _ _ _ H CH) as (x & R & _ & CE).
  destruct (cert_octets _ _ _ _ _ _ (embedded_ok _ _ _ _ _ S O) DC) as (x' & R' & (l & _ & _ & EB & _ & _ & _ & _ & _ & _ & _ & _ & KX)).
  rewrite EB in *. assert (x' = x) by congruence. subst x'.
  destruct KX as [(_ & n' & e' & K1 & K2)|(_ & _ & k' & _ & K1)]; [|congruence].
  assert (n' = n /\ e' = Zpos p) as [-> ->] by (rewrite K1 in KC; inversion KC; auto).
  exists o, content, cert, signers, x, n, p. repeat (split; [assumption|]). assumption.
Qed.

Theorem valid_roa_certified : forall now init P s x, explores explore_iter (init_mgr now init) P s -> only_locators init ->
  valid_roa (m_v s) x ->
  exists f raw d, In f P /\ f_type f = TRoa /\ Discovery.holds disk f raw d /\
    certified_roa all_versions keep sha256 other_sig excused (found_in disk P) (anchored hex_sha1 disk P) now
      d (roa_asn x) (roa_entries x).
Proof using All.
  intros now init P s x H OL VR.
  destruct (valid_roa_octets sha256 sha_len x509 strict signed crl_sig_ok dec_crl hex_sha1 disk synced clock strict_manifests strict_hash add_invalid cache _ _ _ _ _ H OL VR)
    as (CH & f & raw & d & FP & FT & HD & SR & _).
  assert (NT : f_type f <> TTal) by congruence.
  destruct (signed_file sha256 sha_len x509 strict signed crl_sig_ok dec_crl hex_sha1 disk synced clock strict_manifests strict_hash add_invalid cache f raw d NT HD) as (O & _).
  exists f, raw, d. split; [exact FP|]. split; [exact FT|]. split; [exact HD|].
  exact (signed_certified _ _ _ _ _ _ _ _ H SR CH O).
Qed.

Theorem exported_certified : forall xs tals filt names paths now dur L, explored_all xs tals ->
  generate_list filt names paths tals now dur = Ret L -> forall r, In r (l_data L) ->
  exists j q f raw d asn entries e, nth_error xs j = Some q /\
    In f (x_files q) /\ f_type f = TRoa /\ Discovery.holds disk f raw d /\ In e entries /\
    r = mkJ (ipnet_text (re_net e)) (re_maxlen e mod 256) ([65; 83] ++ dec asn) (tal_name names paths j) /\
    certified_roa all_versions keep sha256 other_sig excused (found_in disk (x_files q)) (anchored hex_sha1 disk (x_files q))
      (x_now q) d asn entries.
Proof using All.
  intros xs tals filt names paths now dur L X G r I.
  destruct (exported_octets sha256 sha_len x509 strict signed crl_sig_ok dec_crl hex_sha1 disk synced clock strict_manifests strict_hash add_invalid cache _ _ _ _ _ _ _ _ X G r I)
    as (j & q & f & raw & d & asn & entries & e & c & NQ & FP & FT & HD & SR & IE & RE & CH & _).
  assert (EQ : explores explore_iter (init_mgr (x_now q) (x_init q)) (x_files q) (x_mgr q)).
  { clear - X NQ. revert j NQ. induction X as [|q' t xs tals (E & O & L) F IH]; intros [|j] NQ; cbn in NQ; try discriminate.
    - assert (q' = q) by congruence. subst. auto.
    - eauto. }
  assert (NT : f_type f <> TTal) by congruence.
  destruct (signed_file sha256 sha_len x509 strict signed crl_sig_ok dec_crl hex_sha1 disk synced clock strict_manifests strict_hash add_invalid cache f raw d NT HD) as (O & _).
  exists j, q, f, raw, d, asn, entries, e. repeat (split; [assumption|]).
  exact (signed_certified _ _ _ _ _ _ _ _ EQ SR CH O).
Qed.
End Chain.
