(** The meaning of the exported entries in terms of the octets. *)
From Coq Require Import List ZArith Lia Bool.
From Verif.Model Require Import Base NetIP CertRes Roa Str Ber GoTime Der Tal Validator Explore ObjDer TalText TalDer FileDecoders NetText Output.
From Verif.Spec Require Import Addr Resources B64 Bits IpExtSpec TimeSpec ContentSpec SignedSpec TalSpec Trust Discovery CtSpec OutputSpec EndSpec.
From Verif.Proofs Require Import StrProofs NetIPProofs DecodeProofs RoaProofs ObjBytes ContentProofs SignedThm TalDerProofs ExploreInv ExploreThm ExportProofs
  Provenance EndThm.
Import ListNotations.
Open Scope Z_scope.

(** * Entries *)
Lemma prefix_unique : forall fam b net, wf_bits b -> prefix_of fam b (Some net) -> decode_ip fam b = Some net.
Proof.
  intros fam b net W H. pose proof (prefix_meaning fam b W) as K.
  inversion H as [n net' F L H1 H2 H3 H4 H5 H6 E|n net' F L H1 H2 H3 E|]; subst net'; destruct (decode_ip fam b) as [net2|] eqn:D;
    try (inversion K as [| |X]; exfalso; eapply X; eassumption).
  - inversion K as [m n2 Fm Lm K1 K2 K3 K4 K5 K6 E|m n2 Fm Lm K1 K2 K3 E|]; subst n2; pose proof (fam_unique _ _ _ F Fm) as <-; [|lia].
    assert (nip net2 = nip net) by (apply bval_inj; auto; [congruence|rewrite <- !addr_val_bval; congruence]).
    assert (nmask net2 = nmask net) by (apply bval_inj; auto; [congruence|rewrite <- !addr_val_bval; congruence]).
    destruct net2, net. cbn in *. congruence.
  - inversion K as [m n2 Fm Lm K1 K2 K3 K4 K5 K6 E|m n2 Fm Lm K1 K2 K3 E|]; subst n2; pose proof (fam_unique _ _ _ F Fm) as <-; [lia|].
    destruct net2, net. cbn in *. congruence.
Qed.

Lemma address_entry : forall fam ea e, roa_address fam ea e ->
  decoded_entry e /\ exists n b, fam_octets fam n /\ wf_bits b /\ prefix_of fam b (Some (re_net e)).
Proof.
  intros fam ea e H.
  inversion H as [e' e1 junk c b n net C1 HJ C2 B P F E1 E2|e' e1 e2 junk c c2 b m n net C1 C2 B P F C3 I3 E1 E2]; subst; cbn [re_net].
  - assert (W : wf_bits b) by now destruct B as (u & _ & _ & _ & W).
    split; [|exists n, b; auto]. exists fam, n, b, (-1). split; [exact F|]. split; [exact W|].
    pose proof (prefix_unique _ _ _ W P) as D. cbn [convert_addrs ra_bits ra_maxlen]. rewrite D.
    change (-1 <? 0) with true. cbv iota. now rewrite (entry_len _ _ _ _ W F D).
  - assert (W : wf_bits b) by now destruct B as (u & _ & _ & _ & W).
    split; [|exists n, b; auto]. exists fam, n, b, m. split; [exact F|]. split; [exact W|].
    pose proof (prefix_unique _ _ _ W P) as D. cbn [convert_addrs ra_bits ra_maxlen]. rewrite D.
    now rewrite (entry_len _ _ _ _ W F D).
Qed.

Lemma Forall2_concat_in : forall A B (R : A -> list B -> Prop) l ls e, Forall2 R l ls -> In e (concat ls) ->
  exists a b, In a l /\ R a b /\ In e b.
Proof.
  intros A B R l ls e F. induction F as [|a b l ls H F IH]; intros I; cbn in I; [contradiction|].
  apply in_app_or in I. destruct I as [I|I]; [exists a, b; split; [now left|auto]|].
  destruct (IH I) as (a' & b' & K1 & K2). exists a', b'. split; [now right|auto].
Qed.
Lemma Forall2_in_right : forall A B (R : A -> B -> Prop) l l' e, Forall2 R l l' -> In e l' -> exists a, In a l /\ R a e.
Proof.
  intros A B R l l' e F. induction F as [|a b l l' H F IH]; intros I; [contradiction|].
  destruct I as [<-|I]; [exists a; split; [now left|auto]|]. destruct (IH I) as (a' & K1 & K2). exists a'. split; [now right|auto].
Qed.

Lemma octets_entry : forall content asn entries e, roa_octets content asn entries -> In e entries ->
  decoded_entry e /\ exists fam n b, fam_octets fam n /\ wf_bits b /\ prefix_of fam b (Some (re_net e)).
Proof.
  intros content asn entries e H I. inversion H as [o e1 e2 junk rest c asn' fs ls C1 C2 I2 C3 F E1 E2 E3]; subst.
  destruct (Forall2_concat_in _ _ _ _ _ _ F I) as (blk & l & _ & RB & IL).
  inversion RB as [o2 e3 e4 junk2 fam es l2 K1 K2 K3 F2 E4 E5]; subst.
  destruct (Forall2_in_right _ _ _ _ _ _ F2 IL) as (ea & _ & RA).
  destruct (address_entry _ _ _ RA) as (D & n & b & H1 & H2 & H3). split; [exact D|]. exists fam, n, b. auto.
Qed.

Section Meaning.
Variable sha256 : bytes -> bytes.
Hypothesis sha_len : forall x, length (sha256 x) = 32%nat.
Variable x509_parse : bytes -> option (cert * list (list Z * bytes)).
Variable strict : bool.
Variable sig_ok : cert -> cert -> bool.
Variable crl_sig_ok : cert -> crl -> bool.
Variable dec_crl : bytes -> option crl.
Variable hex_sha1 : bytes -> bytes.
Variable disk : bytes -> option bytes.
Variable synced : bytes -> bool.
Variable clock : nat -> Z * Z.
Variable strict_manifests : bool.
Variable strict_hash : bool.
Variable add_invalid : bool.
Notation dec_cert := (file_cert x509_parse).
Notation dec_roa := (file_roa sha256 x509_parse strict).
Notation dec_mft := (file_mft sha256 x509_parse strict).
Notation explore_iter := (explore_iter sig_ok crl_sig_ok file_tal dec_cert dec_roa dec_mft dec_crl hex_sha1 disk synced sha256 clock strict_manifests strict_hash add_invalid).
Notation run := (run sig_ok crl_sig_ok file_tal dec_cert dec_roa dec_mft dec_crl hex_sha1).
Notation explored_all := (explored_all sha256 x509_parse strict sig_ok crl_sig_ok dec_crl hex_sha1 disk synced clock strict_manifests strict_hash add_invalid).
Notation minv_reach := (minv_reach sig_ok crl_sig_ok file_tal dec_cert dec_roa dec_mft dec_crl hex_sha1 disk synced sha256 clock strict_manifests strict_hash add_invalid).
Hypothesis cache : octet_cache disk.

(** What is handed in as a trust anchor is found through a locator. *)
Lemma given_located : forall now init P s ops c, explores explore_iter (init_mgr now init) P s -> only_locators init ->
  (forall o, In o ops -> match o with
      | DoResource f d => In f P /\ exists raw, Discovery.holds disk f raw d /\
          (strict_hash = true -> forall h, fd_hash (f_desc f) = Some h -> sha256 raw = h)
      | DoInvalidate _ => True
      | _ => False
      end) ->
  given_as_anchor dec_cert ops c ->
  exists f p, In f P /\ f_type f = TCer /\ fd_trust (f_desc f) = true /\ contents disk dec_cert f c /\
    f_parent f = Some p /\ In p P /\ f_type p = TTal.
Proof using All.
  intros now init P s ops c H OL F [I|(f & d & I & FT & DC & TR)]; [destruct (F _ I)|].
  destruct (F _ I) as (FP & raw & HD & _). destruct (minv_reach _ _ _ _ H) as (T & M).
  assert (FI : In f T) by (apply (mi_in _ _ _ _ _ _ _ _ _ _ _ _ _ _ _ _ _ _ _ M), in_or_app; auto).
  destruct (mi_trust _ _ _ _ _ _ _ _ _ _ _ _ _ _ _ _ _ _ _ M _ FI TR) as [PN|(p & PA & PT & _)].
  - pose proof (mi_root _ _ _ _ _ _ _ _ _ _ _ _ _ _ _ _ _ _ _ M _ FI PN) as R. apply OL in R. destruct R. congruence.
  - exists f, p. repeat (split; [assumption || (exists raw, d; auto)|]). split; [|exact PT].
    apply (mi_par _ _ _ _ _ _ _ _ _ _ _ _ _ _ _ _ _ _ _ M _ _ FI PA).
Qed.

Lemma holds_mono : forall (A B : cert -> Prop) v fam lo hi, (forall c, A c -> B c) ->
  forall c, OutputSpec.holds sig_ok A v fam lo hi c -> OutputSpec.holds sig_ok B v fam lo hi c.
Proof using All.
  intros A B v fam lo hi H c K. induction K as [c V X C|c p V E S C K IH].
  - apply holds_anchor; auto.
  - eapply holds_link; eauto.
Qed.

Theorem exported_means : forall xs tals filt names paths now dur L, explored_all xs tals ->
  (forall q, In q xs -> plain_certs disk dec_cert q) ->
  generate_list filt names paths tals now dur = Ret L -> forall r, In r (l_data L) ->
  exists j q f raw d asn entries e c fam n b ip, nth_error xs j = Some q /\
    In f (x_files q) /\ f_type f = TRoa /\ Discovery.holds disk f raw d /\
    signed_roa sha256 dec_cert d asn entries c /\ In e entries /\
    prefix_of fam b (Some (re_net e)) /\ fam_octets fam n /\ wf_bits b /\ bs_len b <= 8 * Z.of_nat n /\
    length ip = n /\ addr_val ip = bits_val b * 2 ^ (8 * Z.of_nat n - bs_len b) /\
    shows r ip (bs_len b) /\ j_len r = re_maxlen e /\ bs_len b <= j_len r <= 8 * Z.of_nat n /\
    j_asn r = [65; 83] ++ dec asn /\ j_ta r = tal_name names paths j /\
    chain_to sig_ok (locator_names dec_cert hex_sha1 disk (x_files q)) (m_v (x_mgr q)) c /\
    OutputSpec.holds sig_ok (under_locator disk dec_cert (x_files q)) (m_v (x_mgr q)) n
      (bits_val b * 2 ^ (8 * Z.of_nat n - bs_len b)) ((bits_val b + 1) * 2 ^ (8 * Z.of_nat n - bs_len b) - 1) c.
Proof using All.
  intros xs tals filt names paths now dur L X PC G r I.
  (* the runs behind the explorations *)
  assert (RS : exists rs, produced run rs tals /\ Forall2 (fun q k => m_v (x_mgr q) = run_state k /\
    explores explore_iter (init_mgr (x_now q) (x_init q)) (x_files q) (x_mgr q) /\ only_locators (x_init q) /\
    forall c, given_as_anchor dec_cert (run_ops k) c -> exists f p, In f (x_files q) /\ f_type f = TCer /\
      fd_trust (f_desc f) = true /\ contents disk dec_cert f c /\ f_parent f = Some p /\ In p (x_files q) /\ f_type p = TTal) xs rs).
  { clear G PC. induction X as [|q t xs tals (E & O & LV) F IH].
    - exists []. split; constructor.
    - destruct IH as (rs & P & M). destruct (explored_run _ _ _ _ _ _ _ _ _ _ _ _ _ _ _ _ _ _ _ E) as (ops & R & FO).
      exists ((ops, x_now q, m_v (x_mgr q)) :: rs). split; constructor; auto. split; [reflexivity|]. split; [exact E|]. split; [exact O|].
      intros c K. exact (given_located _ _ _ _ _ _ E O FO K). }
  destruct RS as (rs & P & M).
  destruct (exported_from _ _ _ _ _ _ _ _ _ _ _ _ _ _ _ _ P G r I) as (j & k & x & l & e & N & RN & VR & V & IE & IR & -> & _).
  assert (NQ : exists q, nth_error xs j = Some q /\ m_v (x_mgr q) = run_state k /\
    explores explore_iter (init_mgr (x_now q) (x_init q)) (x_files q) (x_mgr q) /\ only_locators (x_init q) /\
    forall c, given_as_anchor dec_cert (run_ops k) c -> exists f p, In f (x_files q) /\ f_type f = TCer /\
      fd_trust (f_desc f) = true /\ contents disk dec_cert f c /\ f_parent f = Some p /\ In p (x_files q) /\ f_type p = TTal).
  { clear - M N. revert j N. induction M as [|q k' xs rs H F IH]; intros [|j] N; cbn in N; try discriminate.
    - assert (k' = k) by congruence. subst. exists q. split; [reflexivity|]. exact H.
    - eauto. }
  destruct NQ as (q & NQ & VQ & E & OL & GA). pose proof (PC q (nth_error_In _ _ NQ)) as (P1 & P2 & P3). cbv zeta in *.
  pose proof VR as VR'. rewrite <- VQ in VR'.
  assert (DE : forall x e, valid_roa (run_state k) x -> In e (roa_entries x) -> decoded_entry e).
  { intros x' e' VX IX. rewrite <- VQ in VX.
    destruct (valid_roa_octets _ sha_len _ _ _ _ _ _ _ _ _ _ _ _ cache _ _ _ _ _ E OL VX) as (_ & f & raw & d & _ & _ & _ & SR & _).
    destruct SR as (o & content & cert & signers & n & p & _ & RO & _). exact (proj1 (octets_entry _ _ _ _ RO IX)). }
  assert (CF : conforming_state (given_as_anchor dec_cert (run_ops k)) (run_state k)).
  { rewrite VQ in P1, P2, P3. split; [exact P1|]. split; [|split; [exact P3|exact DE]].
    intros c fam VC GC. destruct (GA _ GC) as (f & p & A1 & A2 & A3 & A4 & _). exact (P2 f c fam A1 A2 A3 A4 VC). }
  destruct (entry_held _ _ _ _ _ _ _ _ k x l e RN CF VR V IE) as (ip & p & S1 & S2 & S3 & S4 & HD).
  destruct (entry_shows file_tal dec_cert dec_roa dec_mft dec_crl hex_sha1 (tal_name names paths j) (roa_asn x) e ip p S1 S2 S3 S4) as (SH & LN).
  destruct (valid_roa_octets _ sha_len _ _ _ _ _ _ _ _ _ _ _ _ cache _ _ _ _ _ E OL VR') as (CH & f & raw & d & H1 & H2 & H3 & SR & _).
  pose proof SR as (o & content & cert & signers & n' & p' & _ & RO & _).
  destruct (octets_entry _ _ _ _ RO IR) as (_ & fam & n & b & F & W & PO).
  pose proof (fam_len _ _ F) as N416. assert (B0 : 0 <= bs_len b) by (destruct W as (_ & ? & _); assumption).
  pose proof S1 as (OK & FM & NM).
  assert (FIT : length ip = n /\ bs_len b <= 8 * Z.of_nat n /\ p = bs_len b /\ addr_val ip = bits_val b * 2 ^ (8 * Z.of_nat n - bs_len b)).
  { rewrite S3 in PO. inversion PO as [m net Fm Lm K1 K2 K3 K4 K5 K6 EE|m net Fm Lm K1 K2 K3 EE|]; subst net;
      pose proof (fam_unique _ _ _ F Fm) as <-; cbn [nip nmask] in *.
    - split; [exact K1|]. split; [exact Lm|]. split; [|exact K3].
      unfold addr_bits in *. rewrite K1 in *.
      rewrite (mask_number p n N416 S2) in K6.
      assert (2 ^ (8 * Z.of_nat n - p) = 2 ^ (8 * Z.of_nat n - bs_len b)) as Q by lia.
      apply (Z.pow_inj_r 2) in Q; lia.
    - exfalso. apply (f_equal (@length Z)) in K3. unfold addr_bits in K3, S2.
      rewrite cidr_mask_len in K3 by (auto; exact S2). cbn in K3. destruct FM; lia. }
  destruct FIT as (FL & FB & -> & FA). unfold addr_bits in *. rewrite FL in *.
  assert (PW : 0 < 2 ^ (8 * Z.of_nat n - bs_len b)) by (apply Z.pow_pos_nonneg; lia).
  exists j, q, f, raw, d, (roa_asn x), (roa_entries x), e, (roa_cert x), fam, n, b, ip. rewrite LN.
  do 17 (split; [assumption || reflexivity|]). split; [exact CH|].
  assert (FF : first_addr (8 * Z.of_nat n) (bs_len b) (addr_val ip) = bits_val b * 2 ^ (8 * Z.of_nat n - bs_len b)).
  { unfold first_addr. rewrite FA, Z.mod_mul by lia. lia. }
  assert (LL : last_addr (8 * Z.of_nat n) (bs_len b) (addr_val ip) = (bits_val b + 1) * 2 ^ (8 * Z.of_nat n - bs_len b) - 1).
  { unfold last_addr. rewrite FF. lia. }
  rewrite FF, LL in HD. rewrite VQ. eapply holds_mono; [|exact HD].
  intros c K. destruct (GA _ K) as (f' & p2 & A1 & A2 & _ & A4 & A5 & A6 & A7). exists f', p2. auto 10.
Qed.
End Meaning.
