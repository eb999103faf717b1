(** The statements about octets in the vocabulary of [ObjSpec]. *)
From Coq Require Import Lia Bool ZifyBool ZifyNat.
From Verif.Model Require Import Base Str NetIP CertRes Roa Ber Asn1 GoTime Der Tal Cms Validator ObjDer.
From Verif.Spec Require Import Addr Resources Bits Canon BerSpec CmsSpec ObjSpec.
From Verif.Proofs Require Import StrProofs NetIPProofs BerProofs DerPrim DerProofs DerBytes ObjEncode ObjSign ObjRound CmsProofs ValidatorPanic DerInside ObjInside.

(** ** Encoders *)
Lemma as_list_ext : forall nums rdi, as_list nums -> as_list rdi ->
  exists b, encode_as_ext nums rdi = Some b /\
    (Z.of_nat (length b) < 2 ^ 31 -> forall rest, decode_as_ext (b ++ rest) = (nums, rdi, true)).
Proof. intros nums rdi [A B] [C D]. now apply as_ext_back. Qed.

Lemma sia_list : forall l, Forall (fun s => object_id (fst s)) l ->
  exists b, encode_sia l = Some b /\ (Z.of_nat (length b) < 2 ^ 31 -> forall rest, decode_sia (b ++ rest) = Some l).
Proof. intros l H. apply sia_octets. eapply Forall_impl; [|exact H]. intros s. apply object_id_fits. Qed.

Lemma roa_contents : forall asn l, entries_ok l -> int64 asn ->
  exists blocks content, encode_roa_entries l = Ret blocks /\
    marshal t_roa_content (v_roa_content asn blocks) = Some content /\
    encode_roa asn l = Ret (econtent oid_roa content) /\
    (Z.of_nat (length content) < 2 ^ 31 -> forall rest,
       match read_as t_roa_content roa_content_of (content ++ rest) with
       | Some (a, f) => a = asn /\ convert_entries f = Some (by_family l)
       | None => False
       end).
Proof.
  intros asn l H A. destruct (roa_entries_octets asn l H A) as (blocks & b & E1 & E2 & E3 & E4).
  exists blocks, b. split; [exact E1|]. split; [exact E2|]. split.
  - unfold encode_roa. rewrite E1. cbn [gbind]. now rewrite E2.
  - intros L rest. rewrite (E4 L rest). now split.
Qed.

Lemma mft_contents : forall m, mft_ok m ->
  exists content, marshal t_mft_content (v_mft_content m) = Some content /\ encode_mft m = econtent oid_mft content /\
    (Z.of_nat (length content) < 2 ^ 31 ->
       to_der content = Ret content /\
       forall rest, read_as t_mft_content mft_content_of (content ++ rest) = Some m).
Proof.
  intros m Hm. pose proof (mft_ok_fits m Hm) as Fm. destruct (mft_octets_back m Fm) as (content & Em & Er).
  exists content. split; [exact Em|]. split; [unfold encode_mft; now rewrite Em|]. intros Lc. split; [|now apply Er].
  destruct (marshal_der _ _ _ (mft_content_fits m Fm) (mft_octs m Hm) Em Lc) as (tr & Dt).
  unfold to_der. pose proof (ber2der_der tr content Dt Lc []) as B. rewrite app_nil_r in B. now rewrite B.
Qed.

(** ** Panics *)
Lemma roa_list_ok : forall l cert, nets_ok cert -> validate_roa_list l cert <> Panic.
Proof.
  induction l as [|e l IH]; intros cert H; cbn [validate_roa_list]; [discriminate|]. cbv zeta.
  destruct (odefault ([], []) (get_range_ip (re_net e))) as [mn mx].
  pose proof (is_ip_range_in_ok cert mn mx H) as P. destruct (is_ip_range_in cert mn mx) as [[a b]|]; [|contradiction].
  cbn [gbind]. specialize (IH cert H). destruct (validate_roa_list l cert) as [[[v iv] c]|]; [|contradiction].
  cbn [gbind]. destruct a; [discriminate|]. destruct b; discriminate.
Qed.

Section Panics.
  Variable sha256 : bytes -> bytes.
  Variable x509_parse : bytes -> option (cert * list (list Z * bytes)).

  Lemma validate_obj_ok : forall c content key, sd_signers (co_data c) <> [] -> validate_obj sha256 c content key <> Panic.
  Proof.
    intros c content key H. unfold validate_obj, cms_validate, cms_view. cbn [c_signers].
    destruct (sd_signers (co_data c)) as [|s ss]; [congruence|]. cbn [map si_attrs si_sig].
    destruct (negb _); [discriminate|]. destruct (marshal_sad _ _); [|discriminate].
    destruct (_ <? 2)%nat; [discriminate|]. destruct key as [m e|m e|k]; try discriminate.
    destruct e as [|p|p]; try discriminate. destruct (decrypt_signature_rsa _ _ _); [|discriminate].
    destruct (beq _ _); discriminate.
  Qed.
  Lemma validate_obj_panic : forall c content key, sd_signers (co_data c) = [] -> validate_obj sha256 c content key = Panic.
  Proof. intros c content key H. unfold validate_obj, cms_validate, cms_view. cbn [c_signers]. now rewrite H. Qed.
  Lemma strict_signers : forall c, strict_ok true c = true -> sd_signers (co_data c) <> [].
  Proof.
    intros c H. unfold strict_ok, check_signatures_match, cms_view in H. cbn [c_certs c_signers] in H.
    destruct (cert_algorithm _); [|discriminate]. destruct (sd_signers (co_data c)); [discriminate|discriminate].
  Qed.

  (** A panic of DecodeROA: no signer and no strict check, or an address block
      of an unknown family in the certificate. *)
  Theorem roa_panics : forall strict d, decode_roa sha256 x509_parse strict d = Panic ->
    exists c, decode_cms d = Some c /\
      ((strict = false /\ sd_signers (co_data c) = []) \/
       exists ee, decode_certificate x509_parse (r_bytes (sd_certs (co_data c))) = Some ee /\ In (INet None) (c_ips ee)).
  Proof.
    intros strict d H. unfold decode_roa in H. destruct (decode_cms d) as [c|]; [|discriminate].
    exists c. split; [reflexivity|].
    destruct (strict_ok strict c) eqn:S; [|discriminate]. cbn [negb] in H.
    destruct (sd_signers (co_data c)) as [|s ss] eqn:Es.
    { left. split; [|reflexivity]. destruct strict; [|reflexivity]. now destruct (strict_signers c S). }
    right. destruct (bindopt (inner_octets c) grouped) as [[content bad]|]; [|discriminate].
    destruct (read_as t_roa_content roa_content_of content) as [[asn blocks]|]; [|discriminate].
    destruct (convert_entries blocks) as [entries|]; [|discriminate].
    unfold get_signing_time in H. rewrite Es in H. cbn [gbind] in H.
    destruct (decode_certificate x509_parse (r_bytes (sd_certs (co_data c)))) as [ee|]; [|discriminate].
    exists ee. split; [reflexivity|].
    assert (V : validate_obj sha256 c content (c_key ee) <> Panic) by (apply validate_obj_ok; rewrite Es; discriminate).
    destruct (validate_obj sha256 c content (c_key ee)) as [ok|]; [|contradiction]. cbn [gbind] in H.
    destruct (existsb (fun i => match i with INet None => true | _ => false end) (c_ips ee)) eqn:X.
    - apply existsb_exists in X. destruct X as (i & I & J). destruct i as [[n|]| |]; try discriminate. exact I.
    - exfalso. assert (N : nets_ok (c_ips ee)).
      { intros i I ->. enough (existsb (fun i => match i with INet None => true | _ => false end) (c_ips ee) = true) by congruence.
        apply existsb_exists. now exists (INet None). }
      pose proof (roa_list_ok entries (c_ips ee) N) as P.
      destruct (validate_roa_list entries (c_ips ee)) as [split|]; [discriminate|contradiction].
  Qed.

  (** A panic of DecodeManifest: BER2DER on the content, or no signer and no
      strict check. *)
  Theorem mft_panics : forall strict d, bytes_ok d = true -> decode_mft sha256 x509_parse strict d = Panic ->
    exists c, decode_cms d = Some c /\
      ((strict = false /\ sd_signers (co_data c) = []) \/
       exists content bad, bindopt (inner_octets c) grouped = Some (content, bad) /\ ber2der content = BPanic).
  Proof.
    intros strict d Od H. unfold decode_mft in H. destruct (decode_cms d) as [c|] eqn:Ec; [|discriminate].
    exists c. split; [reflexivity|].
    destruct (strict_ok strict c) eqn:S; [|discriminate]. cbn [negb] in H.
    destruct (bindopt (inner_octets c) grouped) as [[content bad]|] eqn:Eg; [|discriminate].
    destruct (to_der content) as [b|] eqn:T.
    - left. cbn [gbind] in H. destruct (read_as t_mft_content mft_content_of b) as [m|]; [|discriminate].
      destruct (decode_certificate x509_parse (r_bytes (sd_certs (co_data c)))) as [ee|]; [|discriminate].
      destruct (sd_signers (co_data c)) as [|s ss] eqn:Es.
      + split; [|reflexivity]. destruct strict; [|reflexivity]. now destruct (strict_signers c S).
      + exfalso. assert (V : validate_obj sha256 c b (c_key ee) <> Panic) by (apply validate_obj_ok; rewrite Es; discriminate).
        destruct (validate_obj sha256 c b (c_key ee)); [discriminate|contradiction].
    - right. exists content, bad. split; [reflexivity|]. unfold to_der in T.
      pose proof (ber2der_terminates content (content_ok d c content bad Od Ec Eg)) as F. destruct (ber2der content); try discriminate; [reflexivity|congruence].
  Qed.

  (** A panic of DecodeXML: no signer. *)
  Theorem xml_panics : forall d, decode_xml sha256 x509_parse d = Panic ->
    exists c, decode_cms d = Some c /\ sd_signers (co_data c) = [].
  Proof.
    intros d H. unfold decode_xml in H. destruct (decode_cms d) as [c|]; [|discriminate].
    exists c. split; [reflexivity|]. destruct (inner_octets c) as [content|]; [|discriminate].
    destruct (decode_certificate x509_parse (r_bytes (sd_certs (co_data c)))) as [ee|]; [|discriminate].
    destruct (sd_signers (co_data c)) as [|s ss] eqn:Es; [reflexivity|]. exfalso.
    assert (V : validate_obj sha256 c content (c_key ee) <> Panic) by (apply validate_obj_ok; rewrite Es; discriminate).
    destruct (validate_obj sha256 c content (c_key ee)); [discriminate|contradiction].
  Qed.
End Panics.

(** ** Objects made by the library *)
Section Made.
  Variable sha256 : bytes -> bytes.
  Variable rsa_sign : bytes -> option bytes.
  Variable x509_parse : bytes -> option (cert * list (list Z * bytes)).
  Variables (n e : Z) (certificate ski : bytes) (time : gotime) (ee : cert).

  Notation signer_ready := (signer_ready sha256 rsa_sign x509_parse n e certificate ski time ee).
  Notation signed_as := (signed_as sha256 rsa_sign certificate ski time).

  Theorem roa_accepted : signer_ready -> nets_ok (c_ips ee) ->
    forall o asn l, object_id o -> (length (odefault [] (put_oid o)) <= 11)%nat -> entries_ok l -> int64 asn ->
    exists blocks content d,
      encode_roa_entries l = Ret blocks /\ marshal t_roa_content (v_roa_content asn blocks) = Some content /\
      signed_as o content d /\
      (Z.of_nat (length d) < 2 ^ 31 -> forall rest,
        exists split, validate_roa_list (by_family l) (c_ips ee) = Ret split /\
          decode_roa sha256 x509_parse false (d ++ rest) = Ret (Some (mkRoa ee asn (by_family l) true, split)) /\
          decode_roa sha256 x509_parse true (d ++ rest) =
            (if match cert_algorithm certificate with Some a => beq a rsa_encryption | None => false end
             then Ret (Some (mkRoa ee asn (by_family l) true, split)) else Ret None)).
  Proof.
    intros (Hs & Hk & Hc & Hl & Hi & Ht & He & Hp) N o asn l Ho Hol Hen Ha.
    destruct (roa_round sha256 rsa_sign x509_parse Hs n e certificate ski time ee Hk Hc Hl Hi Ht He Hp o asn l Ho Hol Hen Ha)
      as (blocks & content & ec & c & c' & d & E1 & E2 & E3 & E4 & E5 & E6 & H).
    exists blocks, content, d. split; [exact E1|]. split; [exact E2|]. split; [now exists ec, c, c'|].
    intros L rest. destruct (H L) as (_ & A & B & C).
    pose proof (roa_list_ok (by_family l) (c_ips ee) N) as P.
    destruct (validate_roa_list (by_family l) (c_ips ee)) as [split|]; [|contradiction]. exists split.
    split; [reflexivity|]. split; [exact (A rest)|].
    change (r_full alg_raw) with rsa_encryption in *.
    destruct (cert_algorithm certificate) as [a|]; [|apply B; discriminate].
    destruct (beq a rsa_encryption) eqn:Eb.
    - apply beq_eq in Eb. subst a. rewrite (C rest eq_refl). apply A.
    - apply B. intros X. apply some_eq in X. subst a. rewrite beq_refl in Eb. discriminate.
  Qed.

  Theorem mft_accepted : signer_ready ->
    forall o m, object_id o -> (length (odefault [] (put_oid o)) <= 11)%nat -> mft_ok m ->
    exists content d, marshal t_mft_content (v_mft_content m) = Some content /\ signed_as o content d /\
      (Z.of_nat (length d) < 2 ^ 31 -> forall rest,
        let accepted := Ret (Some (mkMft ee (map (fun f => (fst f, bs_bytes (snd f))) (mc_files m))
                        (unix (mc_this m)) (unix (mc_next m)) true, m)) in
        decode_mft sha256 x509_parse false (d ++ rest) = accepted /\
        decode_mft sha256 x509_parse true (d ++ rest) =
          (if match cert_algorithm certificate with Some a => beq a rsa_encryption | None => false end
           then accepted else Ret None)).
  Proof.
    intros (Hs & Hk & Hc & Hl & Hi & Ht & He & Hp) o m Ho Hol Hm.
    destruct (mft_round sha256 rsa_sign x509_parse Hs n e certificate ski time ee Hk Hc Hl Hi Ht He Hp o m Ho Hol Hm)
      as (content & ec & c & c' & d & E2 & E3 & E4 & E5 & E6 & H).
    exists content, d. split; [exact E2|]. split; [now exists ec, c, c'|].
    intros L rest. destruct (H L) as (_ & A & B & C). cbv zeta.
    split; [exact (A rest)|].
    change (r_full alg_raw) with rsa_encryption in *.
    destruct (cert_algorithm certificate) as [a|]; [|apply B; discriminate].
    destruct (beq a rsa_encryption) eqn:Eb.
    - apply beq_eq in Eb. subst a. rewrite (C rest eq_refl). apply A.
    - apply B. intros X. apply some_eq in X. subst a. rewrite beq_refl in Eb. discriminate.
  Qed.

  Theorem xml_accepted : signer_ready -> forall content,
    exists d, signed_as oid_xml content d /\
      (Z.of_nat (length d) < 2 ^ 31 -> forall rest, decode_xml sha256 x509_parse (d ++ rest) = Ret (Some (content, ee, true))).
  Proof.
    intros (Hs & Hk & Hc & Hl & Hi & Ht & He & Hp) content.
    destruct (xml_round sha256 rsa_sign x509_parse Hs n e certificate ski time ee Hk Hc Hl Hi Ht He Hp content)
      as (ec & c & c' & d & E3 & E4 & E5 & E6 & H).
    exists d. split; [now exists ec, c, c'|]. intros L rest. now apply H.
  Qed.
End Made.

Lemma oid_roa_ok : object_id oid_roa /\ (length (odefault [] (put_oid oid_roa)) <= 11)%nat.
Proof. split; [split; [left; lia|repeat constructor; lia]|vm_compute; lia]. Qed.
Lemma oid_mft_ok : object_id oid_mft /\ (length (odefault [] (put_oid oid_mft)) <= 11)%nat.
Proof. split; [split; [left; lia|repeat constructor; lia]|vm_compute; lia]. Qed.

Lemma nets_ok_forall : forall l, Forall (fun i => i <> INet None) l -> nets_ok l.
Proof. intros l H i I. rewrite Forall_forall in H. now apply H. Qed.

Lemma roa_accepted_any : forall sha256 rsa_sign x509_parse n e certificate ski time ee,
  signer_ready sha256 rsa_sign x509_parse n e certificate ski time ee ->
  Forall (fun i => i <> INet None) (c_ips ee) ->
  forall o asn l, object_id o -> (length (odefault [] (put_oid o)) <= 11)%nat -> entries_ok l -> int64 asn ->
  exists blocks content d,
    encode_roa_entries l = Ret blocks /\ marshal t_roa_content (v_roa_content asn blocks) = Some content /\
    signed_as sha256 rsa_sign certificate ski time o content d /\
    (Z.of_nat (length d) < 2 ^ 31 -> forall rest,
      exists split, validate_roa_list (by_family l) (c_ips ee) = Ret split /\
        decode_roa sha256 x509_parse false (d ++ rest) = Ret (Some (mkRoa ee asn (by_family l) true, split)) /\
        decode_roa sha256 x509_parse true (d ++ rest) =
          (if match cert_algorithm certificate with Some a => beq a rsa_encryption | None => false end
           then Ret (Some (mkRoa ee asn (by_family l) true, split)) else Ret None)).
Proof. intros * H N. exact (roa_accepted _ _ _ _ _ _ _ _ _ H (nets_ok_forall _ N)). Qed.

Lemma roa_accepted_roa : forall sha256 rsa_sign x509_parse n e certificate ski time ee,
  signer_ready sha256 rsa_sign x509_parse n e certificate ski time ee ->
  Forall (fun i => i <> INet None) (c_ips ee) ->
  forall asn l, entries_ok l -> int64 asn ->
  exists blocks content d,
    encode_roa_entries l = Ret blocks /\ marshal t_roa_content (v_roa_content asn blocks) = Some content /\
    signed_as sha256 rsa_sign certificate ski time oid_roa content d /\
    (Z.of_nat (length d) < 2 ^ 31 -> forall rest,
      exists split, validate_roa_list (by_family l) (c_ips ee) = Ret split /\
        decode_roa sha256 x509_parse false (d ++ rest) = Ret (Some (mkRoa ee asn (by_family l) true, split))).
Proof.
  intros * H N asn l E A. destruct oid_roa_ok as [O1 O2].
  destruct (roa_accepted_any _ _ _ _ _ _ _ _ _ H N oid_roa asn l O1 O2 E A) as (b & c & d & X & Y & Z & W).
  exists b, c, d. repeat (split; [assumption|]). intros L rest. destruct (W L rest) as (s & P & Q & _). eauto.
Qed.

Lemma mft_accepted_mft : forall sha256 rsa_sign x509_parse n e certificate ski time ee,
  signer_ready sha256 rsa_sign x509_parse n e certificate ski time ee ->
  forall m, mft_ok m ->
  exists content d, marshal t_mft_content (v_mft_content m) = Some content /\
    signed_as sha256 rsa_sign certificate ski time oid_mft content d /\
    (Z.of_nat (length d) < 2 ^ 31 -> forall rest,
      decode_mft sha256 x509_parse false (d ++ rest) =
        Ret (Some (mkMft ee (map (fun f => (fst f, bs_bytes (snd f))) (mc_files m))
                     (unix (mc_this m)) (unix (mc_next m)) true, m))).
Proof.
  intros * H m M. destruct oid_mft_ok as [O1 O2].
  destruct (mft_accepted _ _ _ _ _ _ _ _ _ H oid_mft m O1 O2 M) as (c & d & X & Y & W).
  exists c, d. repeat (split; [assumption|]). intros L rest. exact (proj1 (W L rest)).
Qed.

Lemma strict_refuses : forall sha256 rsa_sign x509_parse n e certificate ski time ee,
  signer_ready sha256 rsa_sign x509_parse n e certificate ski time ee ->
  cert_algorithm certificate = Some sha256_with_rsa ->
  forall asn l m, entries_ok l -> int64 asn -> mft_ok m ->
  exists blocks content d content' d',
    encode_roa_entries l = Ret blocks /\ marshal t_roa_content (v_roa_content asn blocks) = Some content /\
    signed_as sha256 rsa_sign certificate ski time oid_roa content d /\
    marshal t_mft_content (v_mft_content m) = Some content' /\
    signed_as sha256 rsa_sign certificate ski time oid_mft content' d' /\
    (Z.of_nat (length d) < 2 ^ 31 -> decode_roa sha256 x509_parse true d = Ret None) /\
    (Z.of_nat (length d') < 2 ^ 31 -> decode_mft sha256 x509_parse true d' = Ret None).
Proof.
  intros * H C asn l m E A M. destruct oid_mft_ok as [O1 O2]. destruct oid_roa_ok as [O3 O4].
  destruct (mft_accepted _ _ _ _ _ _ _ _ _ H oid_mft m O1 O2 M) as (c & d & X & Y & W).
  destruct H as (Hs & Hk & Hc & Hl & Hi & Ht & He & Hp).
  destruct (roa_round sha256 rsa_sign x509_parse Hs n e certificate ski time ee Hk Hc Hl Hi Ht He Hp oid_roa asn l O3 O4 E A)
      as (blocks & content & ec & c1 & c1' & d1 & E1 & E2 & E3 & E4 & E5 & E6 & R).
  exists blocks, content, d1, c, d. split; [exact E1|]. split; [exact E2|]. split; [now exists ec, c1, c1'|].
  split; [exact X|]. split; [exact Y|]. split.
  - intros L. destruct (R L) as (_ & _ & B & _). specialize (B []). rewrite app_nil_r in B. apply B. rewrite C. discriminate.
  - intros L. destruct (W L []) as [_ B]. rewrite app_nil_r in B. rewrite B, C. reflexivity.
Qed.
