(** The key of a trust anchor locator, octet by octet. *)
From Coq Require Import Lia ZifyBool ZifyNat Bool.
From Verif.Model Require Import Base Str NetIP CertRes Ber Asn1 GoTime Der Tal Base64 TalText Cms ObjDer TalDer.
From Verif.Spec Require Import B64 Addr Bits BerSpec IpExtSpec ContentSpec SignedSpec TalSpec.
From Verif.Proofs Require Import NetIPProofs BerProofs Asn1Proofs DerPrim DerProofs DerBytes ObjBytes ContentProofs SignedProofs SignedThm Base64Proofs TalTextProofs.
Ltac Zify.zify_post_hook ::= Z.div_mod_to_equations.

(** ** Lengths of integers *)
Lemma put_int_size : forall n, exists k, length (put_int n) = S k /\ fits_in (S k) n /\ (forall j, k = S j -> ~ fits_in (S j) n).
Proof.
  intros n. unfold put_int. set (f := S (Z.to_nat (Z.log2 (Z.abs n)))).
  assert (B : Z.abs n < 128 * 256 ^ Z.of_nat f).
  { subst f. destruct (Z.eq_dec (Z.abs n) 0) as [E|E].
    - rewrite E. pose proof (pow256pos (S (Z.to_nat (Z.log2 0)))). lia.
    - pose proof (Z.log2_spec (Z.abs n) ltac:(lia)) as [_ L].
      pose proof (Z.log2_nonneg (Z.abs n)) as N.
      rewrite Nat2Z.inj_succ, Z2Nat.id by lia.
      assert (2 ^ Z.succ (Z.log2 (Z.abs n)) <= 256 ^ Z.succ (Z.log2 (Z.abs n))) by (apply Z.pow_le_mono_l; lia).
      assert (0 < 256 ^ Z.succ (Z.log2 (Z.abs n))) by (apply Z.pow_pos_nonneg; lia). lia. }
  destruct (int_length_fits f n ltac:(lia)) as [F M]. destruct (int_length_pos f n) as (k & E). rewrite E in *.
  exists k. rewrite be_length. split; [reflexivity|]. split; [exact F|]. intros j ->. now apply M.
Qed.

Lemma put_int_exact : forall j n, 2 ^ (8 * Z.of_nat (S j) - 1) <= n < 2 ^ (8 * Z.of_nat (S (S j)) - 1) ->
  length (put_int n) = S (S j).
Proof.
  intros j n [L U]. destruct (put_int_size n) as (k & -> & F & M). unfold fits_in in F.
  assert (A : ~ (8 * Z.of_nat (S k) - 1 <= 8 * Z.of_nat (S j) - 1)).
  { intros X. assert (2 ^ (8 * Z.of_nat (S k) - 1) <= 2 ^ (8 * Z.of_nat (S j) - 1)) by (apply Z.pow_le_mono_r; lia). lia. }
  destruct k as [|k]; [lia|]. specialize (M k eq_refl). unfold fits_in in M.
  assert (B : ~ (8 * Z.of_nat (S (S j)) - 1 <= 8 * Z.of_nat (S k) - 1)).
  { intros X. apply M. assert (2 ^ (8 * Z.of_nat (S (S j)) - 1) <= 2 ^ (8 * Z.of_nat (S k) - 1)) by (apply Z.pow_le_mono_r; lia).
    assert (0 < 2 ^ (8 * Z.of_nat (S j) - 1)) by (apply Z.pow_pos_nonneg; lia). lia. }
  lia.
Qed.

Lemma put_int_short : forall n b, 0 <= b -> Z.abs n < 2 ^ b -> Z.of_nat (length (put_int n)) <= b / 8 + 1.
Proof.
  intros n b B H. destruct (put_int_size n) as (k & -> & _ & M). destruct k as [|k]; [lia|].
  specialize (M k eq_refl). unfold fits_in in M.
  assert (~ b <= 8 * Z.of_nat (S k) - 1).
  { intros X. apply M. assert (2 ^ b <= 2 ^ (8 * Z.of_nat (S k) - 1)) by (apply Z.pow_le_mono_r; lia). lia. }
  lia.
Qed.

(** ** One value *)
Lemma read_p0 : forall t u k b v rest, universal t = Some (u, k) -> t <> GString -> t <> GTime -> 0 <= u < 31 ->
  Z.of_nat (length b) < 2 ^ 31 -> (forall h full, decode_inner t p0 h b full = Some v) ->
  parse_field t p0 (put_tlv 0 k u b ++ rest) = Some (v, rest).
Proof.
  intros t u k b v rest U NS NT Hu Hl D.
  destruct (put_tlv_cons 0 k u b) as (x & w & X).
  eapply parse_go with (b := b).
  - rewrite X. discriminate.
  - apply tlv_read; lia.
  - reflexivity.
  - reflexivity.
  - unfold matches, wire_tag. rewrite U. cbn [p_tag p0 p_set p_explicit h_class h_tag h_cons].
    destruct t; cbn [universal] in U; try congruence; injection U as <- <-; reflexivity.
  - intros full _. apply D.
Qed.

Lemma tlv_ok : forall c k u b, 0 <= c < 4 -> 0 <= u < 31 -> bytes_ok b = true -> bytes_ok (put_tlv c k u b) = true.
Proof.
  intros c k u b Hc Hu Hb. rewrite put_tlv_low by exact Hu. apply ok_cons.
  - destruct k; lia.
  - apply ok_app; [apply encode_length_ok|exact Hb].
Qed.

(** ** What is written *)
Definition int_tlv (n : Z) : bytes := put_tlv 0 false 2 (put_int n).
Lemma key_octets_is : forall n e, key_octets n e = put_tlv 0 true 16 (int_tlv n ++ int_tlv e ++ []).
Proof. reflexivity. Qed.
Definition alg_tlv : bytes := [48; 13; 6; 9; 42; 134; 72; 134; 247; 13; 1; 1; 1; 5; 0].
Lemma spki_octets_is : forall n e, spki_octets n e =
  put_tlv 0 true 16 (alg_tlv ++ put_tlv 0 false 3 (0 :: key_octets n e) ++ []).
Proof. intros n e. reflexivity. Qed.

Lemma key_octets_ok : forall n e, bytes_ok (key_octets n e) = true.
Proof.
  intros. rewrite key_octets_is. apply tlv_ok; [lia|lia|].
  apply ok_app; [|apply ok_app; [|reflexivity]]; apply tlv_ok; try lia; apply put_int_bytes.
Qed.
Lemma spki_octets_ok : forall n e, bytes_ok (spki_octets n e) = true.
Proof.
  intros. rewrite spki_octets_is. apply tlv_ok; [lia|lia|]. apply ok_app; [reflexivity|].
  apply ok_app; [|reflexivity]. apply tlv_ok; [lia|lia|]. apply ok_cons; [lia|apply key_octets_ok].
Qed.

Lemma encode_length_short : forall n, 0 <= n < 128 -> length (encode_length n) = 1%nat.
Proof. intros n H. apply (encode_length_der n ltac:(lia)). lia. Qed.

Lemma tlv_size : forall c k u b, 0 <= u < 31 -> Z.of_nat (length b) < 2 ^ 40 -> (length (put_tlv c k u b) <= length b + 10)%nat.
Proof.
  intros c k u b Hu Hb. rewrite put_tlv_low by exact Hu. rewrite !app_length.
  destruct (encode_length_size (Z.of_nat (length b)) ltac:(lia)) as [L _]. cbn [length]. lia.
Qed.

(** A modulus of fewer than 2^30 bits, an exponent of 64. *)
Definition usable (n e : Z) : Prop := Z.log2 (Z.abs n) < 2 ^ 30 /\ - 2 ^ 63 <= e < 2 ^ 63.

Lemma usable_ints : forall n e, usable n e ->
  Z.of_nat (length (put_int n)) <= 2 ^ 27 + 1 /\ Z.of_nat (length (put_int e)) <= 8.
Proof.
  intros n e [N E]. split.
  - destruct (Z.eq_dec (Z.abs n) 0) as [Z0|Z0].
    + assert (n = 0) by lia. subst n. cbn. lia.
    + pose proof (Z.log2_spec (Z.abs n) ltac:(lia)) as [_ L]. pose proof (Z.log2_nonneg (Z.abs n)).
      pose proof (put_int_short n (Z.succ (Z.log2 (Z.abs n))) ltac:(lia) L). lia.
  - destruct (put_int_ok e) as (_ & _ & K & _). specialize (K E). lia.
Qed.

Lemma usable_key : forall n e, usable n e -> Z.of_nat (length (key_octets n e)) < 2 ^ 28.
Proof.
  intros n e U. destruct (usable_ints n e U) as [A B].
  pose proof (tlv_size 0 false 2 (put_int n) ltac:(lia) ltac:(lia)) as S1.
  pose proof (tlv_size 0 false 2 (put_int e) ltac:(lia) ltac:(lia)) as S2.
  fold (int_tlv n) in S1. fold (int_tlv e) in S2. rewrite key_octets_is.
  assert (S3 : (length (int_tlv n ++ int_tlv e ++ []) <= length (put_int n) + length (put_int e) + 20)%nat).
  { rewrite !app_length. cbn [length]. lia. }
  pose proof (tlv_size 0 true 16 (int_tlv n ++ int_tlv e ++ []) ltac:(lia) ltac:(lia)). lia.
Qed.

Lemma read_key_octets : forall n e rest, usable n e ->
  unmarshal t_rsa_key (key_octets n e ++ rest) = Some (VStruct [] [VBig (Some n); VInt e], rest).
Proof.
  intros n e rest U. destruct (usable_ints n e U) as [A B]. pose proof (usable_key n e U) as K.
  rewrite key_octets_is in *. pose proof (put_tlv_length 0 true 16 (int_tlv n ++ int_tlv e ++ [])) as L.
  unfold unmarshal, t_rsa_key. apply read_p0; try reflexivity; try discriminate; try lia.
  intros h full. cbn [decode_inner]. cbn [parse_fields]. unfold int_tlv.
  rewrite (read_p0 GBig 2 false (put_int n) (VBig (Some n))); try reflexivity; try discriminate; try lia.
  - rewrite (read_p0 GInt 2 false (put_int e) (VInt e)); try reflexivity; try discriminate; try lia.
    intros h' full'. cbn [decode_inner]. rewrite int64_back by apply U. reflexivity.
  - intros h' full'. cbn [decode_inner]. now rewrite bigint_back.
Qed.

Theorem read_spki_octets : forall n e rest, usable n e -> read_spki (spki_octets n e ++ rest) = Some (RSAPtr n e).
Proof.
  intros n e rest U. pose proof (usable_key n e U) as K. unfold read_spki.
  assert (R : unmarshal t_spki_read (spki_octets n e ++ rest) =
    Some (VStruct [] [VStruct [] [VOid oid_rsa]; VBits (mkBits (key_octets n e) (8 * Z.of_nat (length (key_octets n e))))], rest)).
  { rewrite spki_octets_is. set (k := key_octets n e) in *.
    assert (S1 : Z.of_nat (length (put_tlv 0 false 3 (0 :: k))) <= Z.of_nat (length k) + 11).
    { pose proof (tlv_size 0 false 3 (0 :: k) ltac:(lia)) as X. cbn [length] in X. specialize (X ltac:(lia)). lia. }
    assert (S2 : Z.of_nat (length (alg_tlv ++ put_tlv 0 false 3 (0 :: k) ++ [])) <= Z.of_nat (length k) + 26).
    { rewrite !app_length. change (length alg_tlv) with 15%nat. cbn [length]. lia. }
    unfold unmarshal, t_spki_read. apply read_p0; try reflexivity; try discriminate; try lia.
    intros h full. cbn [decode_inner]. cbn [parse_fields].
    replace (parse_field (GStruct false [(p0, GOid)]) p0 (alg_tlv ++ put_tlv 0 false 3 (0 :: k) ++ []))
      with (Some (VStruct [] [VOid oid_rsa], put_tlv 0 false 3 (0 :: k) ++ [])).
    - cbv beta iota. rewrite (read_p0 GBits 3 false (0 :: k) (VBits (mkBits k (8 * Z.of_nat (length k)))));
        try reflexivity; try discriminate; try lia.
      + cbn [length]. lia.
      + intros h' full'. cbn [decode_inner]. 
        assert (F : bits_fit (mkBits k (8 * Z.of_nat (length k)))).
        { unfold bits_fit. cbn [bs_bytes bs_len]. replace ((8 - 8 * Z.of_nat (length k) mod 8) mod 8) with 0 by lia.
          split; [lia|]. split; [lia|]. change (2 ^ 0 - 1) with 0. apply Z.land_0_r. }
        pose proof (bits_back _ F) as X. unfold put_bits in X. cbn [bs_bytes bs_len] in X.
        replace ((8 - 8 * Z.of_nat (length k) mod 8) mod 8) with 0 in X by lia. now rewrite X.
    - symmetry. apply (read_p0 (GStruct false [(p0, GOid)]) 16 true [6; 9; 42; 134; 72; 134; 247; 13; 1; 1; 1; 5; 0]);
        try reflexivity; try discriminate; try (cbn [length]; lia). }
  rewrite R. change (oid_eqb oid_rsa oid_rsa) with true. cbv iota. cbn [bs_bytes].
  pose proof (read_key_octets n e [] U) as X. rewrite app_nil_r in X. now rewrite X.
Qed.

(** ** What is read *)
Lemma oid_eqb_eq : forall a b, oid_eqb a b = true -> a = b.
Proof.
  induction a as [|x a IH]; intros [|y b] H; cbn [oid_eqb] in H; try discriminate; [reflexivity|].
  apply andb_true_iff in H as [H1 H2]. apply Z.eqb_eq in H1. subst y. f_equal. auto.
Qed.

Theorem read_spki_grammar : forall d k, bytes_ok d = true -> read_spki d = Some k ->
  exists alg b, key_info alg d b /\
    ((alg = oid_rsa /\ exists n e, k = RSAPtr n e /\ rsa_key (bs_bytes b) n e) \/
     (alg <> oid_rsa /\ k = OtherKey (bs_bytes b))).
Proof.
  intros d k O H. unfold read_spki in H.
  destruct (unmarshal t_spki_read d) as [[v r]|] eqn:E; [|discriminate].
  unfold unmarshal, t_spki_read in E. apply struct_inv in E; [|exact O].
  destruct E as (s & c & vs & -> & -> & C & _ & Oc & F).
  apply fields_cons in F as (v1 & r1 & w1 & F1 & F & ->). apply fields_cons in F as (v2 & r2 & w2 & F2 & F & ->).
  cbn [parse_fields] in F. injection F as <-.
  apply struct_inv in F1; [|exact Oc]. destruct F1 as (s1 & c1 & vs1 & -> & -> & C1 & _ & Oc1 & F).
  apply fields_cons in F as (v3 & r3 & w3 & F3 & F & ->). cbn [parse_fields] in F. injection F as <-.
  apply oid_inv in F3; [|exact Oc1]. destruct F3 as (e2 & c2 & o & -> & -> & C2 & OC).
  apply bytes_ok_app in Oc as [_ Or1].
  apply bits_inv in F2; [|repeat split|reflexivity|exact Or1]. destruct F2 as (e3 & c3 & b & -> & -> & C3 & _ & BC).
  assert (Ob : bytes_ok (bs_bytes b) = true).
  { apply bytes_ok_app in Or1 as [X _]. pose proof (coded_ok _ _ _ C3 X) as Y.
    destruct BC as (u & -> & _). change (u :: bs_bytes b) with ([u] ++ bs_bytes b) in Y. now apply bytes_ok_app in Y as [_ Y]. }
  exists o, b. split; [econstructor; eauto|].
  destruct (oid_eqb o oid_rsa) eqn:Eo.
  - left. apply oid_eqb_eq in Eo. split; [exact Eo|].
    destruct (unmarshal t_rsa_key (bs_bytes b)) as [[v rr]|] eqn:E; [|discriminate].
    unfold unmarshal, t_rsa_key in E. apply struct_inv in E; [|exact Ob].
    destruct E as (s' & c' & vs & Eb & -> & C' & _ & Oc' & F).
    apply fields_cons in F as (v1 & r1' & w1 & F1 & F & ->). apply fields_cons in F as (v2 & r2' & w2 & F2 & F & ->).
    cbn [parse_fields] in F. injection F as <-.
    apply big_inv in F1; [|exact Oc']. destruct F1 as (e1 & d1 & n & -> & -> & D1 & N1).
    apply bytes_ok_app in Oc' as [_ Or1'].
    apply int_inv in F2; [|exact Or1']. destruct F2 as (e2' & d2 & e & -> & -> & D2 & N2).
    injection H as <-. exists n, e. split; [reflexivity|]. rewrite Eb. econstructor; eauto.
  - right. split.
    + intros ->. change (oid_eqb oid_rsa oid_rsa) with true in Eo. discriminate.
    + now injection H as <-.
Qed.

(** ** Sizes *)
Lemma tlv_exact : forall c k u b m l, 0 <= u < 31 -> length b = m -> length (encode_length (Z.of_nat m)) = l ->
  length (put_tlv c k u b) = S (l + m).
Proof. intros c k u b m l Hu <- <-. rewrite put_tlv_low by exact Hu. rewrite !app_length. reflexivity. Qed.

(** The size of a key with modulus of [S j] octets and exponent 65537. *)
Lemma spki_size : forall j n l1 l2 l3 l4,
  2 ^ (8 * Z.of_nat (S j) - 1) <= n < 2 ^ (8 * Z.of_nat (S j)) ->
  length (encode_length (Z.of_nat (S (S j)))) = l1 ->
  length (encode_length (Z.of_nat (S (l1 + S (S j)) + 5))) = l2 ->
  length (encode_length (Z.of_nat (S (S (l2 + (S (l1 + S (S j)) + 5)))))) = l3 ->
  length (encode_length (Z.of_nat (15 + S (l3 + S (S (l2 + (S (l1 + S (S j)) + 5))))))) = l4 ->
  length (spki_octets n 65537) = S (l4 + (15 + S (l3 + S (S (l2 + (S (l1 + S (S j)) + 5)))))).
Proof.
  intros j n l1 l2 l3 l4 H E1 E2 E3 E4.
  assert (A : length (put_int n) = S (S j)).
  { apply put_int_exact. split; [apply H|]. eapply Z.lt_le_trans; [apply H|]. apply Z.pow_le_mono_r; lia. }
  assert (B : length (int_tlv n) = S (l1 + S (S j))) by (apply tlv_exact; [lia|exact A|exact E1]).
  assert (C : length (int_tlv 65537) = 5%nat) by reflexivity.
  assert (D : length (key_octets n 65537) = S (l2 + (S (l1 + S (S j)) + 5))).
  { rewrite key_octets_is. apply tlv_exact; [lia| |exact E2]. rewrite !app_length, B, C. cbn [length]. lia. }
  rewrite spki_octets_is. apply tlv_exact; [lia| |exact E4]. rewrite !app_length. change (length alg_tlv) with 15%nat.
  rewrite (tlv_exact 0 false 3 (0 :: key_octets n 65537) (S (S (l2 + (S (l1 + S (S j)) + 5)))) l3); [cbn [length]; lia|lia| |exact E3].
  cbn [length]. now rewrite D.
Qed.

Lemma spki_1024 : forall n, 2 ^ 1023 <= n < 2 ^ 1024 -> length (spki_octets n 65537) = 162%nat.
Proof. intros n H. exact (spki_size 127 n 2 2 2 2 H eq_refl eq_refl eq_refl eq_refl). Qed.
Lemma spki_2048 : forall n, 2 ^ 2047 <= n < 2 ^ 2048 -> length (spki_octets n 65537) = 294%nat.
Proof. intros n H. exact (spki_size 255 n 3 3 3 3 H eq_refl eq_refl eq_refl eq_refl). Qed.
Lemma spki_3072 : forall n, 2 ^ 3071 <= n < 2 ^ 3072 -> length (spki_octets n 65537) = 422%nat.
Proof. intros n H. exact (spki_size 383 n 3 3 3 3 H eq_refl eq_refl eq_refl eq_refl). Qed.
Lemma spki_4096 : forall n, 2 ^ 4095 <= n < 2 ^ 4096 -> length (spki_octets n 65537) = 550%nat.
Proof. intros n H. exact (spki_size 511 n 3 3 3 3 H eq_refl eq_refl eq_refl eq_refl). Qed.

(** ** Locators *)
Theorem tal_der_round_trip : forall uris k n e t split text, Forall good_uri uris -> k = RSAPtr n e \/ k = RSAVal n e ->
  usable n e -> create_tal uris k = Some t -> encode_tal_size spki_octets t split = Ret (Some text) ->
  (length (spki_octets n e) mod 3 = 0)%nat ->
  decode_tal read_spki text = Some (mkTal uris alg_rsa (RSAPtr n e)).
Proof.
  intros uris k n e t split text G K U C T L.
  eapply tal_round_trip; eauto using spki_octets_ok.
  pose proof (read_spki_octets n e [] U) as X. now rewrite app_nil_r in X.
Qed.

Theorem tal_der_unreadable : forall uris k n e t split text, Forall good_uri uris -> k = RSAPtr n e \/ k = RSAVal n e ->
  create_tal uris k = Some t -> encode_tal_size spki_octets t split = Ret (Some text) ->
  (length (spki_octets n e) mod 3 <> 0)%nat -> decode_tal read_spki text = None.
Proof. intros. eapply tal_unreadable; eauto using spki_octets_ok. Qed.

Lemma bits_usable : forall b n, 0 < b <= 2 ^ 20 -> 2 ^ (b - 1) <= n < 2 ^ b -> usable n 65537.
Proof.
  intros b n Hb H. assert (0 < 2 ^ (b - 1)) by (apply Z.pow_pos_nonneg; lia). split; [|lia].
  rewrite Z.abs_eq by lia. assert (Z.log2 n < b) by (apply Z.log2_lt_pow2; lia). lia.
Qed.

Theorem tal_1024_2048 : forall uris k n b t split text, Forall good_uri uris -> k = RSAPtr n 65537 \/ k = RSAVal n 65537 ->
  b = 1024 \/ b = 2048 -> 2 ^ (b - 1) <= n < 2 ^ b ->
  create_tal uris k = Some t -> encode_tal_size spki_octets t split = Ret (Some text) ->
  decode_tal read_spki text = Some (mkTal uris alg_rsa (RSAPtr n 65537)).
Proof.
  intros uris k n b t split text G K B H C T.
  eapply tal_der_round_trip; eauto.
  - eapply bits_usable; [|exact H]. lia.
  - destruct B as [-> | ->]; [rewrite (spki_1024 n H)|rewrite (spki_2048 n H)]; reflexivity.
Qed.
Theorem tal_3072_4096 : forall uris k n b t split text, Forall good_uri uris -> k = RSAPtr n 65537 \/ k = RSAVal n 65537 ->
  b = 3072 \/ b = 4096 -> 2 ^ (b - 1) <= n < 2 ^ b ->
  create_tal uris k = Some t -> encode_tal_size spki_octets t split = Ret (Some text) ->
  decode_tal read_spki text = None.
Proof.
  intros uris k n b t split text G K B H C T.
  eapply tal_der_unreadable; eauto.
  destruct B as [-> | ->]; [rewrite (spki_3072 n H)|rewrite (spki_4096 n H)]; discriminate.
Qed.

Theorem tal_der_panics : forall data t split, decode_tal read_spki data = Some t -> t_alg t = alg_rsa ->
  encode_tal_size spki_octets t split = Panic.
Proof.
  intros data t split. apply decoded_encode_panics. intros d n e H. unfold read_spki in H.
  destruct (unmarshal t_spki_read d) as [[v r]|]; [|discriminate].
  repeat match type of H with
         | match ?x with _ => _ end = _ => destruct x; try discriminate
         | (if ?x then _ else _) = _ => destruct x; try discriminate
         end.
Qed.

Theorem tal_accepted : forall data t, decode_tal read_spki data = Some t ->
  exists key d alg b, tal_read data (t_uris t) key /\ b64_text (filter (fun c => negb ((c =? 10) || (c =? 13))) key) d /\
    key_info alg d b /\
    ((alg = [1; 2; 840; 113549; 1; 1; 1] /\ t_alg t = alg_rsa /\ exists n e, t_key t = RSAPtr n e /\ rsa_key (bs_bytes b) n e) \/
     (alg <> [1; 2; 840; 113549; 1; 1; 1] /\ t_alg t = 0 /\ t_key t = OtherKey (bs_bytes b))).
Proof.
  intros data t H. unfold decode_tal in H. pose proof (tal_scan_reads data) as R.
  destruct (tal_scan data) as [urls key]. cbn [fst snd] in R.
  destruct (b64_decode key) as [d|] eqn:Ed; [|discriminate].
  unfold b64_decode in Ed. apply b64_groups_iff in Ed.
  destruct (read_spki d) as [k|] eqn:Ek; [|discriminate].
  assert (Od : bytes_ok d = true) by (destruct Ed as (? & ? & ? & ? & _ & _ & _ & _ & X & _); exact X).
  destruct (read_spki_grammar d k Od Ek) as (alg & b & I & C).
  exists key, d, alg, b. destruct C as [(Ea & n & e & -> & K)|(Ea & ->)]; injection H as <-; cbn [t_uris t_alg t_key].
  - split; [exact R|]. split; [exact Ed|]. split; [exact I|]. left. eauto 10.
  - split; [exact R|]. split; [exact Ed|]. split; [exact I|]. right. auto.
Qed.
