(** Signed objects: made, signed, encoded and decoded. *)
From Coq Require Import Lia Bool ZifyBool ZifyNat Permutation.
From Verif.Model Require Import Base Str NetIP CertRes Roa Ber Asn1 GoTime Der Tal Cms Validator ObjDer.
From Verif.Spec Require Import Addr Resources Bits Canon BerSpec CmsSpec ObjSpec.
From Verif.Proofs Require Import StrProofs NetIPProofs BerProofs OutputProofs DerPrim DerProofs DerBytes ObjEncode ObjSign CmsProofs.
Ltac Zify.zify_post_hook ::= Z.div_mod_to_equations.

Lemma object_id_fits : forall l, object_id l -> oid_fits l.
Proof.
  intros [|a [|b r]] H; try contradiction. destruct H as [X Y]. split; [exact X|].
  apply forallb_forall. rewrite Forall_forall in Y. intros n Hn. specialize (Y n Hn). unfold arc_ok. lia.
Qed.
Lemma month_days_eq : forall y m, month_days y m = days_in m y.
Proof.
  intros. unfold month_days, days_in, leap. cbn [existsb]. now rewrite orb_false_r, !orb_assoc.
Qed.
Lemma calendar_fits : forall t, calendar t -> date_fits t.
Proof. intros t H. unfold calendar in H. rewrite month_days_eq in H. exact H. Qed.
Lemma mft_ok_fits : forall m, mft_ok m -> mft_fits m.
Proof.
  intros m (N & T1 & T2 & A & F). split; [destruct (mc_number m); [eauto|congruence]|].
  split; [now apply calendar_fits|]. split; [now apply calendar_fits|]. split; [now apply object_id_fits|].
  eapply Forall_impl; [|exact F]. intros f [X Y]. split; [|exact Y].
  apply forallb_forall. rewrite Forall_forall in X. intros b Hb. specialize (X b Hb). lia.
Qed.

Lemma sequence_tlv : forall b, sequence b -> Z.of_nat (length b) < 2 ^ 31 -> exists c, b = put_tlv 0 true 16 c.
Proof.
  intros b (ts & D) L. inversion D; subst. exists bs.
  rewrite put_tlv_low by lia. change (0 * 64 + (if true then 32 else 0) + 16) with 48.
  change (48 :: l ++ bs) with ([48] ++ l ++ bs) in *. rewrite !app_length in L.
  assert (D2 : der (Cons [48] ts) ([48] ++ encode_length (Z.of_nat (length bs)) ++ bs)).
  { apply der_cons; [assumption|assumption|]. apply encode_length_der. lia. }
  assert (LL : Z.of_nat (length ([48] ++ encode_length (Z.of_nat (length bs)) ++ bs)) < 2 ^ 63).
  { pose proof (encode_length_der (Z.of_nat (length bs)) ltac:(lia)) as [E _].
    rewrite !app_length. cbn [length].
    assert (length (encode_length (Z.of_nat (length bs))) <= 128)%nat; [|lia].
    inversion E; cbn [length]; lia. }
  assert (L1 : Z.of_nat (length ([48] ++ l ++ bs)) < 2 ^ 63) by (rewrite !app_length; lia).
  pose proof (proj1 der_encode _ _ D L1) as E1.
  pose proof (proj1 der_encode _ _ D2 LL) as E2. exact (eq_trans E1 (eq_sym E2)).
Qed.

Lemma made_sequence : forall fs l b, marshal (GStruct false fs) (VStruct [] l) = Some b ->
  exists c, b = put_tlv 0 true 16 c.
Proof.
  intros fs l b H. unfold marshal in H. rewrite make_field_eq, left_out_p0 in H.
  cbn [make_tag universal make_body p0 p_set] in H. destruct (make_fields fs l) as [c|]; [|discriminate].
  apply some_eq in H. subst b. exists c. reflexivity.
Qed.

Lemma mft_octs : forall m, mft_ok m -> octs (v_mft_content m).
Proof.
  intros m (_ & _ & _ & _ & F). unfold v_mft_content. cbn [octs]. repeat split. apply octs_list. apply Forall_map.
  eapply Forall_impl; [|exact F]. intros f [X Y]. cbn [v_file octs]. split; [|split; [apply Y|exact I]].
  apply forallb_forall. rewrite Forall_forall in X. intros b Hb. specialize (X b Hb). unfold byte_ok. lia.
Qed.

Section Round.
  Variable sha256 : bytes -> bytes.
  Variable rsa_sign : bytes -> option bytes.
  Variable x509_parse : bytes -> option (cert * list (list Z * bytes)).
  Hypothesis Hsha : hash32 sha256.

  Variables (n e : Z) (certificate ski : bytes) (time : gotime) (ee : cert).
  Hypothesis Hkey : key_pair rsa_sign n e.
  Hypothesis Hcert : sequence certificate.
  Hypothesis Hcl : Z.of_nat (length certificate) < 2 ^ 31.
  Hypothesis Hski : ski <> [].
  Hypothesis Htime : calendar time.
  Hypothesis Hee : decode_certificate x509_parse certificate = Some ee.
  Hypothesis Hpub : c_key ee = RSAPtr n e.

  (** Made and read, for any content type and content *)
  Lemma object_round : forall o content, object_id o -> (length (odefault [] (put_oid o)) <= 11)%nat ->
    exists ec c c' d,
      econtent o content = Some ec /\ encode_cms certificate ec time = Some c /\
      sign sha256 rsa_sign c ski content certificate = Ret (Some c') /\ marshal_cms c' = Some d /\
      (Z.of_nat (length d) < 2 ^ 31 ->
        Z.of_nat (length content) < 2 ^ 31 /\
        (grouped content = Some (content, false) -> to_encap (r_full (en_content ec)) false = Some content) /\
        to_encap (r_full (en_content ec)) true = Some content /\
        exists c2, (forall rest, decode_cms (d ++ rest) = Some c2) /\
          inner_octets c2 = Some content /\ r_bytes (sd_certs (co_data c2)) = certificate /\
          get_signing_time c2 = Ret (Some time) /\
          validate_obj sha256 c2 content (c_key ee) = Ret true /\
          (strict_ok true c2 = true <-> cert_algorithm certificate = Some (r_full alg_raw))).
  Proof using All.
    intros o content Ho Hol. destruct (sequence_tlv certificate Hcert Hcl) as (cb & Ec).
    destruct Hkey as (Hn & He & Hs). destruct e as [|p|p]; [lia| |lia].
    destruct (Hs (sha256 (to_sign sha256 o content time)) (proj1 (Hsha _)) (proj2 (Hsha _))) as (sig & Esig & Rs).
    pose proof (fun b => proj1 (Hsha b)) as Sl.
    pose proof (object_id_fits _ Ho) as Fo. pose proof (calendar_fits _ Htime) as Ft.
    assert (Lc : Z.of_nat (length (put_tlv 0 true 16 cb)) < 2 ^ 31) by (rewrite <- Ec; exact Hcl).
    destruct (made_steps sha256 rsa_sign o content ski 0 true 16 cb time Sl Fo Hol Hski Ft ltac:(lia) ltac:(lia) Lc sig Esig)
      as (ec & c & c' & E1 & E2 & E3 & E3' & E4 & E5).
    exists ec, c, c', (made_octets sha256 o content ski 0 true 16 cb time sig). rewrite Ec.
    split; [exact E1|]. split; [exact E2|]. split; [exact E4|]. split; [exact E5|]. intros L.
    pose proof (lens_inner sha256 rsa_sign o content ski 0 true 16 cb time Sl Fo Hol Hski Ft ltac:(lia) ltac:(lia) Lc sig Esig L) as LI.
    pose proof (put_tlv_length 2 true 0 (inner_tlv content)) as L1. pose proof (put_tlv_length 0 false 4 content) as L2.
    fold (inner_tlv content) in L2. split; [lia|].
    split; [intros G; now apply E3|]. split; [now apply E3'|].
    destruct (made_read sha256 rsa_sign o content ski 0 true 16 cb time Sl Fo Hol Hski Ft ltac:(lia) ltac:(lia) Lc sig Esig L)
      as (c2 & R1 & R2 & R3 & R4 & R5 & R6).
    exists c2. rewrite Hpub. split; [exact R1|]. split; [exact R2|]. split; [exact R3|]. split; [exact R4|].
    split; [now apply R5|exact R6].
  Qed.

  (** ROAs *)
  Lemma roa_round : forall o asn l, object_id o -> (length (odefault [] (put_oid o)) <= 11)%nat ->
    entries_ok l -> int64 asn ->
    exists blocks content ec c c' d,
      encode_roa_entries l = Ret blocks /\ marshal t_roa_content (v_roa_content asn blocks) = Some content /\
      econtent o content = Some ec /\ encode_cms certificate ec time = Some c /\
      sign sha256 rsa_sign c ski content certificate = Ret (Some c') /\ marshal_cms c' = Some d /\
      (Z.of_nat (length d) < 2 ^ 31 ->
        to_encap (r_full (en_content ec)) false = Some content /\
        (forall rest, decode_roa sha256 x509_parse false (d ++ rest) =
           let! split := validate_roa_list (by_family l) (c_ips ee) in
           Ret (Some (mkRoa ee asn (by_family l) true, split))) /\
        (forall rest, cert_algorithm certificate <> Some (r_full alg_raw) ->
           decode_roa sha256 x509_parse true (d ++ rest) = Ret None) /\
        (forall rest, cert_algorithm certificate = Some (r_full alg_raw) ->
           decode_roa sha256 x509_parse true (d ++ rest) = decode_roa sha256 x509_parse false (d ++ rest))).
  Proof using All.
    intros o asn l Ho Hol Hl Ha. destruct (roa_entries_octets asn l Hl Ha) as (blocks & content & Eb & Em & Ev & Er).
    destruct (object_round o content Ho Hol) as (ec & c & c' & d & E1 & E2 & E3 & E4 & Hd).
    exists blocks, content, ec, c, c', d. split; [exact Eb|]. split; [exact Em|]. split; [exact E1|].
    split; [exact E2|]. split; [exact E3|]. split; [exact E4|]. intros L. specialize (Hd L).
    destruct Hd as (Lc & T1 & T2 & c2 & D1 & D2 & D3 & D4 & D5 & D6).
    destruct (made_sequence _ _ _ Em) as (body & Es).
    assert (G : grouped content = Some (content, false)) by (rewrite Es in *; apply tlv_grouped; lia).
    split; [now apply T1|].
    pose proof (Er Lc []) as R. rewrite app_nil_r in R.
    assert (K : forall strict rest, decode_roa sha256 x509_parse strict (d ++ rest) =
       if strict_ok strict c2 then let! split := validate_roa_list (by_family l) (c_ips ee) in
           Ret (Some (mkRoa ee asn (by_family l) true, split)) else Ret None).
    { intros strict rest. unfold decode_roa. rewrite D1. destruct (strict_ok strict c2); [|reflexivity]. cbn [negb].
      rewrite D2. cbn [bindopt]. rewrite G, R, Ev, D4. cbn [gbind]. rewrite D3, Hee, D5. reflexivity. }
    split; [intros rest; now rewrite K|]. split.
    - intros rest N. rewrite K. destruct (strict_ok true c2); [|reflexivity]. exfalso. apply N. now apply D6.
    - intros rest S. rewrite !K. apply D6 in S. now rewrite S.
  Qed.

  (** Manifests *)
  Lemma mft_round : forall o m, object_id o -> (length (odefault [] (put_oid o)) <= 11)%nat -> mft_ok m ->
    exists content ec c c' d,
      marshal t_mft_content (v_mft_content m) = Some content /\
      econtent o content = Some ec /\ encode_cms certificate ec time = Some c /\
      sign sha256 rsa_sign c ski content certificate = Ret (Some c') /\ marshal_cms c' = Some d /\
      (Z.of_nat (length d) < 2 ^ 31 ->
        to_encap (r_full (en_content ec)) false = Some content /\
        (forall rest, decode_mft sha256 x509_parse false (d ++ rest) =
           Ret (Some (mkMft ee (map (fun f => (fst f, bs_bytes (snd f))) (mc_files m))
                        (unix (mc_this m)) (unix (mc_next m)) true, m))) /\
        (forall rest, cert_algorithm certificate <> Some (r_full alg_raw) ->
           decode_mft sha256 x509_parse true (d ++ rest) = Ret None) /\
        (forall rest, cert_algorithm certificate = Some (r_full alg_raw) ->
           decode_mft sha256 x509_parse true (d ++ rest) = decode_mft sha256 x509_parse false (d ++ rest))).
  Proof using All.
    intros o m Ho Hol Hm. pose proof (mft_ok_fits m Hm) as Fm. destruct (mft_octets_back m Fm) as (content & Em & Er).
    destruct (object_round o content Ho Hol) as (ec & c & c' & d & E1 & E2 & E3 & E4 & Hd).
    exists content, ec, c, c', d. split; [exact Em|]. split; [exact E1|].
    split; [exact E2|]. split; [exact E3|]. split; [exact E4|]. intros L. specialize (Hd L).
    destruct Hd as (Lc & T1 & T2 & c2 & D1 & D2 & D3 & D4 & D5 & D6).
    destruct (made_sequence _ _ _ Em) as (body & Es).
    assert (G : grouped content = Some (content, false)) by (rewrite Es in *; apply tlv_grouped; lia).
    split; [now apply T1|].
    pose proof (Er Lc []) as R. rewrite app_nil_r in R.
    destruct (marshal_der _ _ _ (mft_content_fits m Fm) (mft_octs m Hm) Em Lc) as (tr & Dt).
    assert (TD : to_der content = Ret content).
    { unfold to_der. pose proof (ber2der_der tr content Dt Lc []) as B. rewrite app_nil_r in B. now rewrite B. }
    assert (K : forall strict rest, decode_mft sha256 x509_parse strict (d ++ rest) =
       if strict_ok strict c2 then Ret (Some (mkMft ee (map (fun f => (fst f, bs_bytes (snd f))) (mc_files m))
                        (unix (mc_this m)) (unix (mc_next m)) true, m)) else Ret None).
    { intros strict rest. unfold decode_mft. rewrite D1. destruct (strict_ok strict c2); [|reflexivity]. cbn [negb].
      rewrite D2. cbn [bindopt]. rewrite G, TD. cbn [gbind]. rewrite R, D3, Hee, D5. reflexivity. }
    split; [intros rest; now rewrite K|]. split.
    - intros rest N. rewrite K. destruct (strict_ok true c2); [|reflexivity]. exfalso. apply N. now apply D6.
    - intros rest S. rewrite !K. apply D6 in S. now rewrite S.
  Qed.

  (** XML messages *)
  Lemma xml_round : forall content,
    exists ec c c' d, encode_xml content = Some ec /\ encode_cms certificate ec time = Some c /\
      sign sha256 rsa_sign c ski content certificate = Ret (Some c') /\ marshal_cms c' = Some d /\
      (Z.of_nat (length d) < 2 ^ 31 ->
        to_encap (r_full (en_content ec)) true = Some content /\
        forall rest, decode_xml sha256 x509_parse (d ++ rest) = Ret (Some (content, ee, true))).
  Proof using All.
    intros content.
    destruct (object_round oid_xml content) as (ec & c & c' & d & E1 & E2 & E3 & E4 & Hd).
    { split; [left; lia|]. repeat constructor; lia. }
    { vm_compute. lia. }
    exists ec, c, c', d. split; [exact E1|].
    split; [exact E2|]. split; [exact E3|]. split; [exact E4|]. intros L. specialize (Hd L).
    destruct Hd as (Lc & T1 & T2 & c2 & D1 & D2 & D3 & D4 & D5 & D6). split; [exact T2|].
    intros rest. unfold decode_xml. rewrite D1, D2, D3, Hee, D5. reflexivity.
  Qed.
End Round.
