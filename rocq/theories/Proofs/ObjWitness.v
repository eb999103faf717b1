(** Concrete keys, certificates and objects. *)
From Coq Require Import Lia Bool ZifyBool ZifyNat String.
From Verif.Model Require Import Base Str NetIP CertRes Roa Ber Asn1 GoTime Der Tal Cms Validator ObjDer.
From Verif.Spec Require Import Addr Resources Bits Canon BerSpec CmsSpec ObjSpec.
From Verif.Proofs Require Import StrProofs NetIPProofs DerPrim DerProofs ObjSign ObjRound CmsProofs ObjTop.

(** A "hash function" and a key with exponent 1 *)
Definition sha0 (_ : bytes) : bytes := repeat 7 32.
Definition n0 : Z := addr_val (repeat 255 62).
Definition rsa0 (di : bytes) : option bytes := Some (0 :: 1 :: repeat 255 8 ++ 0 :: di).
Lemma sha0_ok : hash32 sha0.
Proof. intros b. split; reflexivity. Qed.

Lemma addr_val_bound : forall l acc, bytes_ok l = true -> 0 <= acc ->
  0 <= fold_left (fun a b => a * 256 + b) l acc < (acc + 1) * 256 ^ Z.of_nat (List.length l).
Proof.
  induction l as [|b l IH]; intros acc O A; [cbn; lia|].
  cbn [bytes_ok forallb] in O. apply andb_true_iff in O. destruct O as [Ob Ol]. unfold byte_ok in Ob.
  cbn [fold_left]. specialize (IH (acc * 256 + b) Ol ltac:(lia)).
  change (List.length (b :: l)) with (S (List.length l)). rewrite Nat2Z.inj_succ, Z.pow_succ_r by lia.
  assert (0 < 256 ^ Z.of_nat (List.length l)) by (apply Z.pow_pos_nonneg; lia). nia.
Qed.

Lemma key0 : key_pair rsa0 n0 1.
Proof.
  split; [reflexivity|]. split; [reflexivity|]. intros h L O.
  exists (0 :: 1 :: repeat 255 8 ++ 0 :: digest_info h). split; [reflexivity|].
  exists (0 :: 1 :: repeat 255 8 ++ 0 :: digest_info h). split.
  - exists 8%nat. split; [reflexivity|]. split; [lia|]. split; [exact L|]. split; [exact O|].
    cbn [List.length repeat app digest_info]. rewrite L. vm_compute. reflexivity.
  - rewrite Z.pow_1_r. apply Z.mod_small.
    assert (B : bytes_ok (0 :: 1 :: repeat 255 8 ++ 0 :: digest_info h) = true) by (cbn [bytes_ok forallb repeat app digest_info]; exact O).
    unfold addr_val. cbn [fold_left]. change (0 * 256 + 0) with 0. change (0 * 256 + 1) with 1.
    assert (B' : bytes_ok (repeat 255 8 ++ 0 :: digest_info h) = true) by (cbn [bytes_ok forallb repeat app digest_info]; exact O).
    pose proof (addr_val_bound (repeat 255 8 ++ 0 :: digest_info h) 1 B' ltac:(lia)) as X.
    replace (List.length (repeat 255 8 ++ 0 :: digest_info h)) with 60%nat in X by (cbn [List.length repeat app digest_info]; rewrite L; reflexivity).
    assert ((1 + 1) * 256 ^ Z.of_nat 60 <= n0) by (vm_compute; discriminate). lia.
Qed.

(** Certificates with a given algorithm identifier *)
Definition cert_with (alg : bytes) : bytes := 48 :: 35 :: (48 :: 18 :: 2 :: 1 :: 5 :: alg) ++ alg.
Lemma prim_der : forall t c, tag_octets false [t] -> bytes_ok c = true -> Z.of_nat (List.length c) < 128 ->
  der (Prim [t] c) (t :: Z.of_nat (List.length c) :: c).
Proof.
  intros t c T O L. apply (der_prim [t] c [Z.of_nat (List.length c)]); [exact T|exact O|].
  split; [apply len_short; lia|]. cbn [List.length]. lia.
Qed.
Lemma seq_der : forall ts bs, ders ts bs -> Z.of_nat (List.length bs) < 128 ->
  der (Cons [48] ts) (48 :: Z.of_nat (List.length bs) :: bs).
Proof.
  intros ts bs D L. apply (der_cons [48] ts bs [Z.of_nat (List.length bs)]); [apply tag_low; [lia|discriminate|reflexivity]|exact D|].
  split; [apply len_short; lia|]. cbn [List.length]. lia.
Qed.
Definition alg_id (x : Z) : bytes := [48; 13; 6; 9; 42; 134; 72; 134; 247; 13; 1; 1; x; 5; 0].
Definition alg_tree (x : Z) : tree := Cons [48] [Prim [6] [42; 134; 72; 134; 247; 13; 1; 1; x]; Prim [5] []].
Lemma alg_der : forall x, 0 <= x < 256 -> der (alg_tree x) (alg_id x).
Proof.
  intros x Hx. apply (seq_der [Prim [6] [42; 134; 72; 134; 247; 13; 1; 1; x]; Prim [5] []] [6; 9; 42; 134; 72; 134; 247; 13; 1; 1; x; 5; 0]); [|cbn [List.length]; lia].
  apply (ders_cons _ _ [6; 9; 42; 134; 72; 134; 247; 13; 1; 1; x] [5; 0]).
  - apply (prim_der 6 [42; 134; 72; 134; 247; 13; 1; 1; x]); [apply tag_low; [lia|discriminate|reflexivity]| |cbn [List.length]; lia].
    cbn [bytes_ok forallb]. unfold byte_ok. lia.
  - apply (ders_cons _ _ [5; 0] []); [|constructor].
    apply (prim_der 5 []); [apply tag_low; [lia|discriminate|reflexivity]|reflexivity|cbn; lia].
Qed.
Lemma ders_one : forall t b, der t b -> ders [t] b.
Proof. intros t b D. rewrite <- (app_nil_r b). apply ders_cons; [exact D|constructor]. Qed.
Lemma cert_sequence : forall x, 0 <= x < 256 -> sequence (cert_with (alg_id x)).
Proof.
  intros x Hx. pose proof (alg_der x Hx) as D. exists [Cons [48] [Prim [2] [5]; alg_tree x]; alg_tree x].
  apply (seq_der [Cons [48] [Prim [2] [5]; alg_tree x]; alg_tree x] ((48 :: 18 :: 2 :: 1 :: 5 :: alg_id x) ++ alg_id x));
    [|cbn [List.length app alg_id]; lia].
  apply ders_cons; [|now apply ders_one].
  apply (seq_der [Prim [2] [5]; alg_tree x] (2 :: 1 :: 5 :: alg_id x)); [|cbn [List.length alg_id]; lia].
  apply (ders_cons _ _ [2; 1; 5]); [apply (prim_der 2 [5]); [apply tag_low; [lia|discriminate|reflexivity]|reflexivity|cbn; lia]|].
  now apply ders_one.
Qed.

(** The parsed certificate holds 10.0.0.0/8. *)
Definition net10 : ipnet := mkNet [10; 0; 0; 0] [255; 0; 0; 0].
Definition net10_1 : ipnet := mkNet [10; 1; 0; 0] [255; 255; 0; 0].
Definition ip_ext0 : bytes := [48; 12; 48; 10; 4; 2; 0; 1; 48; 4; 3; 2; 0; 10].
Definition bare : cert := mkCert [1] [2] 5 0 100 [] [] 0 (RSAPtr n0 1) [] [] [].
Definition x509_0 (_ : bytes) : option (cert * list (list Z * bytes)) :=
  Some (bare, [([1; 3; 6; 1; 5; 5; 7; 1; 7], ip_ext0)]).
Definition ee0 : cert := mkCert [1] [2] 5 0 100 [INet (Some net10)] [] 0 (RSAPtr n0 1) [] [] [].
Definition time_0 : gotime := mkTime 2026 11 16 12 30 0 0 .
Definition entry0 : roa_entry := mkEntry net10_1 24.
Definition made (certificate : bytes) (e : go (option encap)) (content : bytes) : bytes :=
  match e with
  | Ret (Some ec) =>
      match encode_cms certificate ec time_0 with
      | Some c => match sign sha0 rsa0 c [1] content certificate with
                  | Ret (Some c') => odefault [] (marshal_cms c')
                  | _ => []
                  end
      | None => []
      end
  | _ => []
  end.
Definition roa_octets0 : bytes :=
  match encode_roa_entries [entry0] with
  | Ret b => odefault [] (marshal t_roa_content (v_roa_content 65000 b))
  | Panic => []
  end.

(** A ROA, made with a certificate whose algorithm is given; the same with the
    content type of manifests *)
Definition roa0 (alg : bytes) : bytes := made (cert_with alg) (encode_roa 65000 [entry0]) roa_octets0.
Definition roa_as_mft : bytes := made (cert_with rsa_encryption) (Ret (econtent oid_mft roa_octets0)) roa_octets0.

(** A manifest *)
Definition mft0 : mft_content :=
  mkMC (Some 7) time_0 (mkTime 2026 11 17 12 30 0 0) oid_sha256 [([97; 46; 114; 111; 97], mkBits (repeat 9 32) 256)].
Definition mft_octets0 : bytes := odefault [] (marshal t_mft_content (v_mft_content mft0)).
Definition mft_as_roa : bytes := made (cert_with rsa_encryption) (Ret (econtent oid_roa mft_octets0)) mft_octets0.

(** The content of a manifest that BER2DER cannot read *)
Definition mft_panic : bytes := made (cert_with rsa_encryption) (Ret (econtent oid_mft [48; 2; 48; 129])) [48; 2; 48; 129].

(** The ROA without signers *)
Definition no_signer (content : bytes) : bytes :=
  match econtent oid_roa content with
  | Some ec =>
      match encode_cms (cert_with sha256_with_rsa) ec time_0 with
      | Some c => let d := co_data c in
          odefault [] (marshal_cms (mkCO (co_oid c)
            (mkSD (sd_version d) (sd_digest d) (sd_encap d) (sd_certs d) (sd_crls d) [])))
      | None => []
      end
  | None => []
  end.

(** A certificate with a prefix of an address family that does not exist *)
Definition x509_bad (_ : bytes) : option (cert * list (list Z * bytes)) :=
  Some (bare, [([1; 3; 6; 1; 5; 5; 7; 1; 7], [48; 12; 48; 10; 4; 2; 0; 3; 48; 4; 3; 2; 0; 10])]).

Lemma mft_panic_panics : forall sha256 x509_parse strict, decode_mft sha256 x509_parse strict mft_panic = Panic.
Proof.
  intros. unfold decode_mft.
  assert (E : exists c, decode_cms mft_panic = Some c /\ strict_ok true c = true /\
              exists b, bindopt (inner_octets c) grouped = Some b /\ to_der (fst b) = Panic).
  { destruct (decode_cms mft_panic) as [c|] eqn:E; [|vm_compute in E; discriminate].
    exists c. split; [reflexivity|]. vm_compute in E. injection E as <-. split; [vm_compute; reflexivity|].
    exists ([48; 2; 48; 129], false). split; vm_compute; reflexivity. }
  destruct E as (c & -> & S & [content b] & -> & T). cbn [fst] in T.
  replace (strict_ok strict c) with true by (destruct strict; [now rewrite S|reflexivity]). cbn [negb]. now rewrite T.
Qed.

Lemma no_signer_panics : forall sha256 x509_parse, decode_roa sha256 x509_parse false (no_signer roa_octets0) = Panic.
Proof. intros. vm_compute. reflexivity. Qed.

Lemma no_signer_xml : forall sha256 x509_parse,
  (forall d, x509_parse d <> None) -> (forall d c e, x509_parse d = Some (c, e) -> e = []) ->
  decode_xml sha256 x509_parse (no_signer [60; 62]) = Panic.
Proof.
  intros sha256 x509_parse H1 H2. unfold decode_xml.
  assert (E : exists c, decode_cms (no_signer [60; 62]) = Some c /\ inner_octets c = Some [60; 62] /\ sd_signers (co_data c) = []).
  { destruct (decode_cms (no_signer [60; 62])) as [c|] eqn:E; [|vm_compute in E; discriminate].
    exists c. split; [reflexivity|]. vm_compute in E. injection E as <-. split; vm_compute; reflexivity. }
  destruct E as (c & -> & -> & S). unfold decode_certificate.
  specialize (H1 (r_bytes (sd_certs (co_data c)))). specialize (H2 (r_bytes (sd_certs (co_data c)))).
  destruct (x509_parse _) as [[c0 e]|]; [|congruence]. rewrite (H2 c0 e eq_refl). cbn [decode_extensions].
  now rewrite validate_obj_panic.
Qed.

Lemma bad_family_panics : forall sha256 strict, decode_roa sha256 x509_bad strict (roa0 rsa_encryption) = Panic.
Proof.
  intros sha256 strict. unfold decode_roa.
  assert (E : exists c, decode_cms (roa0 rsa_encryption) = Some c /\ strict_ok true c = true /\ sd_signers (co_data c) <> [] /\
              bindopt (inner_octets c) grouped = Some (roa_octets0, false)).
  { destruct (decode_cms (roa0 rsa_encryption)) as [c|] eqn:E; [|vm_compute in E; discriminate].
    exists c. split; [reflexivity|]. vm_compute in E. injection E as <-. split; [vm_compute; reflexivity|].
    split; [discriminate|]. vm_compute; reflexivity. }
  destruct E as (c & -> & S & Ns & ->).
  replace (strict_ok strict c) with true by (destruct strict; [now rewrite S|reflexivity]). cbn [negb].
  assert (R : read_as t_roa_content roa_content_of roa_octets0 = Some (65000, [([0; 1], [mkAddr (mkBits [10; 1] 16) 24])]))
    by (vm_compute; reflexivity).
  rewrite R. assert (C : convert_entries [([0; 1], [mkAddr (mkBits [10; 1] 16) 24])] = Some [entry0]) by (vm_compute; reflexivity).
  rewrite C. unfold get_signing_time. destruct (sd_signers (co_data c)) as [|s ss] eqn:Es; [congruence|]. cbn [gbind].
  assert (D : exists ee, decode_certificate x509_bad (r_bytes (sd_certs (co_data c))) = Some ee /\ c_ips ee = [INet None])
    by (eexists; split; vm_compute; reflexivity).
  destruct D as (ee & -> & Ei). pose proof (validate_obj_ok sha256 c roa_octets0 (c_key ee) ltac:(rewrite Es; discriminate)) as V.
  destruct (validate_obj sha256 c roa_octets0 (c_key ee)) as [ok|]; [|contradiction]. cbn [gbind]. rewrite Ei. vm_compute. reflexivity.
Qed.
