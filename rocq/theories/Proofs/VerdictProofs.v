(** What a consumer of the exported text is told rests on octets of the cache. *)
From Coq Require Import List ZArith Lia Bool String.
From Verif.Model Require Import Base Str NetIP CertRes Roa Ber Asn1 GoTime Der Tal Validator Explore ObjDer TalText TalDer FileDecoders NetText Json Output StateFile Patricia Ov X509.
From Verif.Spec Require Import Addr Resources Bits IpExtSpec ContentSpec SignedSpec Trust Discovery CtSpec OutputSpec OvSpec EndSpec JsonSpec StateSpec ChainSpec VerdictSpec.
From Verif.Proofs Require Import StrProofs ContentProofs SignedThm HeapProofs ValidatorFacts ValidatorInv ValidatorRes ExploreThm ExportProofs Provenance EndThm EndMeaning JudgeProofs JsonEnc StateProofs StateAny ListText X509Thm.
Import ListNotations.
Open Scope Z_scope.

(** Resources come from an address block. *)
Lemma extensions_block : forall l c c', decode_extensions l c = Some c' ->
  (exists blk ok, decode_ip_block blk = (c_ips c, ok)) -> exists blk ok, decode_ip_block blk = (c_ips c', ok).
Proof.
  induction l as [|(o, d) l IH]; intros c c' H B; cbn [decode_extensions] in H.
  - injection H as <-. exact B.
  - destruct (oid_eqb o [1; 3; 6; 1; 5; 5; 7; 1; 7]).
    + destruct (decode_ip_ext d) as [ips ok] eqn:E. destruct ok; [|discriminate H]. apply (IH _ _ H). cbn [set_ips c_ips].
      unfold decode_ip_ext in E. destruct (read_as _ _ d) as [blk|]; [eauto|discriminate E].
    + destruct (oid_eqb o [1; 3; 6; 1; 5; 5; 7; 1; 8]).
      * destruct (decode_as_ext d) as [[nums x] ok]. destruct ok; [|discriminate H]. apply (IH _ _ H). exact B.
      * destruct (oid_eqb o [1; 3; 6; 1; 5; 5; 7; 1; 11]).
        -- destruct (decode_sia d) as [s|]; [|discriminate H]. apply (IH _ _ H). exact B.
        -- exact (IH _ _ H B).
Qed.
Lemma certificate_block : forall x509_parse d c, file_cert x509_parse d = Some c -> exists blk ok, decode_ip_block blk = (c_ips c, ok).
Proof.
  intros x509_parse d c H. unfold file_cert, decode_certificate in H. destruct (x509_parse d) as [[c0 exts]|]; [|discriminate H].
  apply (extensions_block _ _ _ H). exists [], true. reflexivity.
Qed.
(** A prefix without an address makes the check of the resources crash. *)
Lemma checked_plain : forall l parent r, validate_ip_list l parent = Ret r -> ~ In (INet None) l.
Proof.
  induction l as [|i l IH]; intros parent r H I; [destruct I|]. cbn [validate_ip_list] in H. destruct I as [I|I].
  - subst i. discriminate H.
  - destruct (ip_get_range i) as [[[mn mx] cp]|]; [|discriminate H]. cbn [gbind] in H. destruct cp.
    + destruct (validate_ip_list l parent) as [p|] eqn:E; [|discriminate H]. exact (IH _ _ E I).
    + destruct (is_ip_range_in parent mn mx) as [[b ck]|]; [|discriminate H]. cbn [gbind] in H.
      destruct (validate_ip_list l parent) as [p|] eqn:E; [|discriminate H]. exact (IH _ _ E I).
Qed.
Lemma wf_plain : forall l, wf_list l -> ~ In (INet None) l.
Proof.
  intros l W I. unfold wf_list in W. rewrite Forall_forall in W. destruct (W _ I) as [(fam & lo & hi & D)|(fam & D)]; inversion D.
Qed.

Section Octets.
Variable sha256 : bytes -> bytes.
Hypothesis sha_len : forall x, List.length (sha256 x) = 32%nat.
Variable x509_parse : bytes -> option (cert * list (list Z * bytes)).
Variable strict : bool.
Variable sig_ok : cert -> cert -> bool.
Variable crl_sig_ok : cert -> crl -> bool.
Variable dec_crl : bytes -> option crl.
Variable hex_sha1 : bytes -> bytes.
Variable disk : bytes -> option bytes.
Variable synced : bytes -> bool.
Variable clock : nat -> Z * Z.
Variable strict_manifests : bool.
Variable strict_hash : bool.
Variable add_invalid : bool.
Notation dec_cert := (file_cert x509_parse).
Notation dec_roa := (file_roa sha256 x509_parse strict).
Notation dec_mft := (file_mft sha256 x509_parse strict).
Notation explore_iter := (explore_iter sig_ok crl_sig_ok file_tal dec_cert dec_roa dec_mft dec_crl hex_sha1 disk synced sha256 clock strict_manifests strict_hash add_invalid).
Notation run := (run sig_ok crl_sig_ok file_tal dec_cert dec_roa dec_mft dec_crl hex_sha1).
Notation explored_all := (explored_all sha256 x509_parse strict sig_ok crl_sig_ok dec_crl hex_sha1 disk synced clock strict_manifests strict_hash add_invalid).
Hypothesis cache : octet_cache disk.

Lemma valid_block : forall now init P s c, explores explore_iter (init_mgr now init) P s -> valid_cert (m_v s) c ->
  exists blk ok, decode_ip_block blk = (c_ips c, ok).
Proof using All.
  intros now init P s c H (a & _ & CA).
  assert (IN : In (OCert c) (map r_obj (v_heap (m_v s)))).
  { destruct CA as (r & N & O). rewrite <- O. apply in_map. eapply nth_error_In; eauto. }
  destruct (explored_objs _ _ _ _ _ _ _ _ _ _ _ _ _ _ _ _ _ _ _ _ H IN) as (f & raw & d & FP & HD & _ & BR).
  assert (NT : f_type f <> TTal) by (unfold brings in BR; destruct (f_type f); congruence).
  destruct (signed_file sha256 sha_len x509_parse strict sig_ok crl_sig_ok dec_crl hex_sha1 disk synced clock strict_manifests strict_hash add_invalid cache f raw d NT HD) as (O & L).
  unfold brings in BR. destruct (f_type f) eqn:FT; try contradiction.
  - exact (certificate_block _ _ _ BR).
  - destruct BR as (m & DM & MC). unfold file_mft in DM.
    destruct (decode_mft sha256 x509_parse strict d) as [[[r z]|]|] eqn:E; try discriminate DM. injection DM as ->.
    destruct (mft_written sha256 sha_len x509_parse strict d m z O L E)
      as (o & inside & content & cert & signers & n & _ & S1 & _ & _ & _ & _ & _ & _ & _ & DC & _). rewrite MC in DC.
    exact (certificate_block _ _ _ DC).
  - destruct BR as (x & DR & XC). unfold file_roa in DR.
    destruct (decode_roa sha256 x509_parse strict d) as [[[r z]|]|] eqn:E; try discriminate DR. injection DR as ->.
    assert (L' : Z.of_nat (List.length d) < 2 ^ 48) by (eapply Z.lt_trans; [exact L|reflexivity]).
    destruct (roa_written sha256 sha_len x509_parse strict d x z O L' E) as (o & content & cert & signers & _ & S1 & _ & DC & _).
    rewrite XC in DC. exact (certificate_block _ _ _ DC).
Qed.

(** The runs behind the explorations, with what the decoders guarantee. *)
Lemma explored_decoded : forall xs tals, explored_all xs tals -> (forall q, In q xs -> plain_anchors disk dec_cert q) ->
  exists rs, produced run rs tals /\ Forall2 (fun q k => m_v (x_mgr q) = run_state k /\
    explores explore_iter (init_mgr (x_now q) (x_init q)) (x_files q) (x_mgr q) /\ only_locators (x_init q) /\
    decoded_state (given_as_anchor dec_cert (run_ops k)) (run_state k)) xs rs.
Proof using All.
  intros xs tals X PA. induction X as [|q t xs tals (E & O & LV) F IH].
  - exists []. split; constructor.
  - destruct IH as (rs & P & M); [intros q' I; apply PA; right; exact I|].
    destruct (explored_run _ _ _ _ _ _ _ _ _ _ _ _ _ _ _ _ _ _ _ E) as (ops & R & FO).
    exists ((ops, x_now q, m_v (x_mgr q)) :: rs). split; constructor; auto. split; [reflexivity|]. split; [exact E|]. split; [exact O|].
    cbn [run_ops run_state fst snd].
    assert (W : forall c, valid_cert (m_v (x_mgr q)) c -> given_as_anchor dec_cert ops c -> wf_list (c_ips c)).
    { intros c V K.
      destruct (given_located sha256 sha_len x509_parse strict sig_ok crl_sig_ok dec_crl hex_sha1 disk synced clock strict_manifests strict_hash add_invalid cache _ _ _ _ _ _ E O FO K)
        as (f & p & A1 & A2 & A3 & A4 & _).
      exact (PA q (or_introl eq_refl) f c A1 A2 A3 A4 V). }
    split; [|split; [exact W|]].
    + intros c V. split; [exact (valid_block _ _ _ _ _ E V)|].
      destruct (run_claims _ _ _ _ _ _ _ _ _ _ _ R) as (I & CL). pose proof V as (a & VA & CA). apply hobj_cert_at in CA.
      destruct (issuer_of _ _ _ _ _ _ I CL VA CA) as [T|(pa & pc & _ & _ & _ & _ & _ & _ & ((vs & chk & EV & _) & _))].
      * exact (wf_plain _ (W c V T)).
      * exact (checked_plain _ _ _ EV).
    + intros x e VX IX.
      destruct (valid_roa_octets _ sha_len _ _ _ _ _ _ _ _ _ _ _ _ cache _ _ _ _ _ E O VX) as (_ & f & raw & d & _ & _ & _ & SR & _).
      destruct SR as (o & content & cert & signers & n & p & _ & RO & _). exact (proj1 (octets_entry _ _ _ _ RO IX)).
Qed.
End Octets.

(** ** From the text to the entries *)
Lemma has_one : forall o k x y, has o k x -> has o k y -> x = y.
Proof.
  intros o k x y (l & E & I & U) (l' & E' & I' & U'). rewrite E in E'. injection E' as <-. symmetry. exact (U _ I').
Qed.
Lemma writes_one : forall v a b, writes a v -> writes b v -> a = b.
Proof.
  assert (K : forall t d, digits t -> t = 45 :: d -> False).
  { intros t d D ->. apply proj2 in D. inversion D as [|? ? B]. lia. }
  intros v a b (t & -> & A) (t' & E & B). injection E as <-.
  destruct A as [(D1 & ->)|(d & E1 & D1 & ->)], B as [(D2 & ->)|(d' & E2 & D2 & ->)]; try reflexivity.
  - destruct (K _ _ D1 E2).
  - destruct (K _ _ D2 E1).
  - rewrite E1 in E2. injection E2 as <-. reflexivity.
Qed.
Lemma entry_one : forall e r r', shows_entry r e -> shows_entry r' e -> as_oroa r = as_oroa r'.
Proof.
  intros e r r' (P1 & A1 & (n1 & N1 & W1) & _) (P2 & A2 & (n2 & N2 & W2) & _).
  pose proof (has_one _ _ _ _ P1 P2) as EP. pose proof (has_one _ _ _ _ A1 A2) as EA. pose proof (has_one _ _ _ _ N1 N2) as EN.
  injection EP as EP. injection EA as EA. subst n2. pose proof (writes_one _ _ _ W1 W2) as EL.
  unfold as_oroa, get_prefix, get_asn2. rewrite EP, EA, EL. reflexivity.
Qed.
Lemma list_one : forall l v o, shows_list l v -> reads_as v o -> o = map as_oroa (l_data l).
Proof.
  intros l v o (_ & es & H & F) (es' & H' & F'). pose proof (has_one _ _ _ _ H H') as E. injection E as <-.
  clear H H'. revert o F'. induction F as [|r e d es S1 F IH]; intros o F'; inversion F' as [|? x ? o' (r' & S2 & ->) F2]; subst; [reflexivity|].
  cbn [map]. f_equal; [exact (entry_one _ _ _ S2 S1)|exact (IH _ F2)].
Qed.
Lemma list_reads : forall l v, shows_list l v -> reads_as v (map as_oroa (l_data l)).
Proof.
  intros l v (_ & es & H & F). exists es. split; [exact H|]. clear H. induction F as [|r e d es S1 F IH]; constructor; eauto.
Qed.

(** Entries whose prefix and number are in ASCII are read back as they are. *)
Definition plain_entry (r : roajson) : Prop := ascii (j_prefix r) /\ ascii (j_asn r).
Lemma replaced_read : forall d d', Forall plain_entry d -> Forall2 replaced_entry d d' -> map as_oroa d' = map as_oroa d.
Proof.
  intros d d' P F. induction F as [|r r' d d' (R1 & R2 & R3 & _) F IH]; [reflexivity|]. inversion P as [|? ? (P1 & P2) PD]; subst.
  cbn [map]. f_equal; [|exact (IH PD)].
  pose proof (replaced_is _ _ (ascii_unicode _ P1) R1) as E1. pose proof (replaced_is _ _ (ascii_unicode _ P2) R3) as E2.
  unfold as_oroa, get_prefix, get_asn2. rewrite E1, E2, R2. reflexivity.
Qed.
Lemma text_entries : forall l, byte_list l -> Forall plain_entry (l_data l) ->
  (exists v, (jdocument 3 v (output_text l) /\ jdocument 3 v (served_text l)) /\ reads_as v (map as_oroa (l_data l))) /\
  forall n v o, Z.of_nat n <= 10000 -> jdocument n v (output_text l) \/ jdocument n v (served_text l) -> reads_as v o ->
    o = map as_oroa (l_data l).
Proof.
  intros l B P. destruct (list_any l B) as (l' & v & RL & SL & D1 & D2 & U). destruct RL as (_ & _ & _ & _ & _ & RD).
  pose proof (replaced_read _ _ P RD) as E. split.
  - exists v. split; [auto|]. rewrite <- E. exact (list_reads _ _ SL).
  - intros n v' o N D R. rewrite (U n v' N D) in R. rewrite <- E. exact (list_one _ _ _ SL R).
Qed.
Lemma ascii_bytes : forall s, ascii s -> bytes_ok s = true.
Proof. intros s A. unfold bytes_ok. apply forallb_forall. intros c I. unfold ascii in A. rewrite Forall_forall in A. specialize (A c I). unfold byte_ok. apply andb_true_intro. split; [apply Z.leb_le|apply Z.ltb_lt]; lia. Qed.
