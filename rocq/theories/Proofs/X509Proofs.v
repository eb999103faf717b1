(** Certificates and revocation lists have the form of the grammar; what
    their extensions state; bits, keys and signatures. *)
From Coq Require Import Lia ZifyBool ZifyNat Bool.
From Verif.Model Require Import Base Str NetIP CertRes Ber Asn1 GoTime Der Tal Cms Validator ObjDer TalDer X509.
From Verif.Spec Require Import Addr Bits BerSpec IpExtSpec TimeSpec ContentSpec SignedSpec TalSpec X509Spec.
From Verif.Proofs Require Import NetIPProofs StrProofs BerProofs Asn1Proofs DerPrim DerProofs DerBytes DerInside ObjEncode ObjBytes ContentProofs SignedProofs CmsProofs TimeProofs TalDerProofs X509Bytes.
Ltac Zify.zify_post_hook ::= Z.div_mod_to_equations.

Lemma oid_eqb_refl : forall a, oid_eqb a a = true.
Proof. induction a as [|x a IH]; [reflexivity|]. cbn [oid_eqb]. rewrite Z.eqb_refl. exact IH. Qed.
Lemma oid_eqb_spec : forall a b, reflect (a = b) (oid_eqb a b).
Proof.
  intros a b. destruct (oid_eqb a b) eqn:E; constructor.
  - now apply oid_eqb_eq.
  - intros ->. rewrite oid_eqb_refl in E. discriminate.
Qed.

(** ** The whole *)
Lemma tbs_inv : forall l v r, bytes_ok l = true -> parse_field t_tbs_cert p0 l = Some (v, r) ->
  forall sv alg sig x, xcert_of (VStruct sv [v; alg; VBits sig]) = Some x ->
  exists e, l = e ++ r /\ tbs_octets e x /\ xc_sig x = sig.
Proof.
  intros l v r O H sv alg sig x X. unfold t_tbs_cert in H.
  destruct (raw_struct_inv _ _ _ _ O H) as (e & c & vs & -> & -> & C & Lc & Oc & F).
  apply fields_cons in F. destruct F as (v1 & c1 & w1 & P1 & F & ->).
  destruct (version_inv _ _ _ Oc P1) as (e1 & n1 & -> & -> & V1). apply bytes_ok_app in Oc as [_ Oc].
  apply fields_cons in F. destruct F as (v2 & c2 & w2 & P2 & F & ->).
  destruct (big_inv _ _ _ Oc P2) as (e2 & k2 & n2 & -> & -> & C2 & N2). apply bytes_ok_app in Oc as [_ Oc].
  apply fields_cons in F. destruct F as (v3 & c3 & w3 & P3 & F & ->).
  destruct (alg_typed _ _ _ Oc P3) as (a3 & T3). destruct (alg_inv _ _ _ _ Oc P3 T3) as (e3 & -> & A3). apply bytes_ok_app in Oc as [_ Oc].
  apply fields_cons in F. destruct F as (v4 & c4 & w4 & P4 & F & ->).
  destruct (raw_field_inv _ _ _ Oc P4) as (x4 & -> & -> & S4 & _). apply bytes_ok_app in Oc as [_ Oc].
  apply fields_cons in F. destruct F as (v5 & c5 & w5 & P5 & F & ->).
  destruct (validity_inv _ _ _ Oc P5) as (e5 & b5 & t1 & t2 & -> & -> & V5). apply bytes_ok_app in Oc as [_ Oc].
  apply fields_cons in F. destruct F as (v6 & c6 & w6 & P6 & F & ->).
  destruct (raw_field_inv _ _ _ Oc P6) as (x6 & -> & -> & S6 & _). apply bytes_ok_app in Oc as [_ Oc].
  apply fields_cons in F. destruct F as (v7 & c7 & w7 & P7 & F & ->).
  destruct (key_inv _ _ _ Oc P7) as (e7 & a7 & va7 & b7 & -> & -> & T7 & K7). apply bytes_ok_app in Oc as [_ Oc].
  apply fields_cons in F. destruct F as (v8 & c8 & w8 & P8 & F & ->).
  destruct (unique_inv 1 _ _ _ ltac:(lia) Oc P8) as (e8 & b8 & -> & -> & U8). apply bytes_ok_app in Oc as [_ Oc].
  apply fields_cons in F. destruct F as (v9 & c9 & w9 & P9 & F & ->).
  destruct (unique_inv 2 _ _ _ ltac:(lia) Oc P9) as (e9 & b9 & -> & -> & U9). apply bytes_ok_app in Oc as [_ Oc].
  apply fields_cons in F. destruct F as (v10 & c10 & w10 & P10 & F & ->). cbn [parse_fields] in F. apply some_eq in F. subst w10.
  cbn [xcert_of] in X. rewrite T3, T7 in X. destruct (slice_of extension_of v10) as [es|] eqn:S10; [|discriminate].
  apply some_eq in X. subst x. destruct (extensions_inv 3 _ _ _ _ ltac:(lia) Oc P10 S10) as (e10 & -> & W10).
  exists e. split; [reflexivity|]. split; [|reflexivity].
  apply (tbs_one e1 e2 e3 (r_full x4) e5 (r_full x6) e7 e8 e9 e10 c10 k2); auto.
Qed.

Theorem certificate_grammar : forall d x, bytes_ok d = true -> x509_read d = Some x -> certificate_octets d x.
Proof.
  intros d x O H. unfold x509_read, unmarshal, t_x509 in H.
  destruct (parse_field _ p0 d) as [[v r]|] eqn:E; [|discriminate]. destruct r as [|b r]; [|discriminate].
  destruct (raw_struct_inv _ _ _ _ O E) as (e & c & vs & -> & -> & C & Lc & Oc & F). rewrite app_nil_r in *.
  apply fields_cons in F. destruct F as (v1 & c1 & w1 & P1 & F & ->).
  apply fields_cons in F. destruct F as (v2 & c2 & w2 & P2 & F & ->).
  apply fields_cons in F. destruct F as (v3 & c3 & w3 & P3 & F & ->). cbn [parse_fields] in F. apply some_eq in F. subst w3.
  pose proof Oc as Oc1.
  assert (O1 : bytes_ok c1 = true) by (destruct (parse_good t_tbs_cert p0 c v1 c1 P1) as (_ & (q & ->) & _); now apply bytes_ok_app in Oc).
  destruct (alg_typed _ _ _ O1 P2) as (a2 & T2). destruct (alg_inv _ _ _ _ O1 P2 T2) as (e2 & E2 & A2).
  assert (O2 : bytes_ok c2 = true) by (rewrite E2 in O1; now apply bytes_ok_app in O1).
  destruct (bits_inv p0 _ _ _ ltac:(repeat split) eq_refl O2 P3) as (e3 & k3 & b3 & E3 & -> & C3 & _ & B3).
  destruct (tbs_inv _ _ _ Oc P1 _ _ _ _ H) as (e1 & E1 & T1 & S1).
  apply (certificate_one e1 e2 e3 c3 e a2 k3 x); [|exact T1|exact A2|exact C3|now rewrite S1].
  rewrite E1, E2, E3 in C. exact C.
Qed.

(** The values of extensions are octets, if the certificate is. *)
Lemma extension_ok : forall e a, extension_octets e a -> bytes_ok e = true -> bytes_ok (e_value a) = true.
Proof.
  intros e a H O. destruct H as [e e1 e2 e3 junk c o k d C C1 I F C3]. cbn [e_value].
  pose proof (coded_ok _ _ _ C O) as Oc. apply bytes_ok_app in Oc as [_ Oc]. apply bytes_ok_app in Oc as [_ Oc].
  apply bytes_ok_app in Oc as [Oc _]. exact (coded_ok _ _ _ C3 Oc).
Qed.
Lemma extensions_ok : forall k e l, wrapped_extensions k e l -> bytes_ok e = true -> Forall (fun a => bytes_ok (e_value a) = true) l.
Proof.
  intros k e l H O. destruct H as [|lw n es e l Hn N C F]; [constructor|].
  apply bytes_ok_cons in O as [_ O]. apply bytes_ok_app in O as [_ O]. pose proof (coded_ok _ _ _ C O) as Oc. clear C O.
  induction F as [|y a ys l X F IH]; [constructor|]. cbn [concat] in Oc. apply bytes_ok_app in Oc as [O1 O2].
  constructor; [exact (extension_ok _ _ X O1)|now apply IH].
Qed.
Lemma certificate_ok : forall d x, certificate_octets d x -> bytes_ok d = true ->
  Forall (fun a => bytes_ok (e_value a) = true) (xc_exts x) /\ wf_bits (xc_key x) /\ wf_bits (xc_sig x).
Proof.
  intros d x H O. destruct H as [e1 e2 e3 junk d alg c x C T A C3 B3]. pose proof (coded_ok _ _ _ C O) as Oc.
  apply bytes_ok_app in Oc as [O1 _]. destruct B3 as (u3 & _ & _ & _ & W3). 
  destruct T as [ev es ea ei et eu ek f1 f2 ex junk' c' v serial al iss t1 t2 sub kalg key exts sig tbs Ct V Cs N A1 -> Si Va -> Su K U1 U2 W].
  cbn [xc_exts xc_key xc_sig] in *. pose proof (coded_ok _ _ _ Ct O1) as Ot.
  do 9 (apply bytes_ok_app in Ot as [_ Ot]). apply bytes_ok_app in Ot as [Ot _].
  split; [exact (extensions_ok _ _ _ W Ot)|]. split; [|exact W3]. destruct K as [e k1 k2 junk2 a ck b Ck Ak Ck2 (u & _ & _ & _ & Wk)]. exact Wk.
Qed.

(** ** Bits *)
Lemma shift_right_length : forall s p l, length (shift_right s p l) = length l.
Proof. intros s p l. revert p. induction l as [|b l IH]; intros p; [reflexivity|]. cbn [shift_right length]. now rewrite IH. Qed.

Lemma shift_right_spec : forall s l p, 1 <= s <= 7 -> bytes_ok l = true -> 0 <= p < 256 ->
  bytes_ok (shift_right s p l) = true /\
  bval (shift_right s p l) = ((p * 256 ^ Z.of_nat (length l) + bval l) / 2 ^ s) mod 256 ^ Z.of_nat (length l).
Proof.
  intros s l p Hs. revert p. induction l as [|b l IH]; intros p O Hp.
  - split; [reflexivity|]. cbn [shift_right bval length]. change (256 ^ Z.of_nat 0) with 1. now rewrite Z.mod_1_r.
  - apply bytes_ok_cons in O as [Ob O]. destruct (IH b O Ob) as [I1 I2]. cbn [shift_right].
    assert (P2 : 0 < 2 ^ s) by (apply Z.pow_pos_nonneg; lia).
    assert (P8 : 2 ^ s * 2 ^ (8 - s) = 256) by (rewrite <- Z.pow_add_r by lia; replace (s + (8 - s)) with 8 by lia; reflexivity).
    set (q := 2 ^ s) in *. set (t := 2 ^ (8 - s)) in *.
    assert (Ht : 0 < t) by (apply Z.pow_pos_nonneg; lia).
    assert (Hb : 0 <= b / q < t) by (split; [apply Z.div_pos; lia|apply Z.div_lt_upper_bound; lia]).
    assert (D : (p * t) mod 256 + b / q = ((p * 256 + b) / q) mod 256).
    { pose proof (Z.mod_pos_bound p q P2) as PQ. pose proof (Z.div_mod p q ltac:(lia)) as DM.
      assert (E2 : (p * 256 + b) / q = p * t + b / q).
      { rewrite <- P8. replace (p * (q * t) + b) with (b + (p * t) * q) by ring. rewrite Z.div_add by lia. ring. }
      rewrite E2. clear E2. set (d := b / q) in *. set (p1 := p / q) in *. set (p2 := p mod q) in *. clearbody d p1 p2.
      assert (L1 : t * p2 <= t * (q - 1)) by (apply Z.mul_le_mono_nonneg_l; lia).
      assert (L0 : 0 <= t * p2) by (apply Z.mul_nonneg_nonneg; lia).
      assert (L2 : t * (q - 1) = 256 - t) by (rewrite <- P8; ring).
      assert (E1 : p * t = t * p2 + p1 * 256) by (rewrite <- P8, DM; ring).
      rewrite E1. replace (t * p2 + p1 * 256 + d) with (t * p2 + d + p1 * 256) by ring. rewrite !Z.mod_add by lia.
      rewrite !Z.mod_small by lia. reflexivity. }
    rewrite D. pose proof (Z.mod_pos_bound ((p * 256 + b) / q) 256 ltac:(lia)) as MB.
    split; [apply bytes_ok_cons; split; [lia|exact I1]|].
    cbn [bval]. rewrite shift_right_length, I2. cbn [length]. rewrite Nat2Z.inj_succ, Z.pow_succ_r by lia.
    pose proof (pow256pos (length l)) as PN. set (N := 256 ^ Z.of_nat (length l)) in *.
    pose proof (bval_bound l O) as BL. fold N in BL. set (v := bval l) in *.
    replace (p * (256 * N) + (b * N + v)) with ((p * 256 + b) * N + v) by ring.
    set (X := (p * 256 + b) * N + v).
    assert (X1 : (p * 256 + b) / q = X / q / N).
    { rewrite Z.div_div by lia. rewrite (Z.mul_comm q N). rewrite <- Z.div_div by lia. f_equal. unfold X.
      rewrite (Z.add_comm _ v), Z.div_add by lia. rewrite Z.div_small by lia. reflexivity. }
    assert (X2 : ((b * N + v) / q) mod N = (X / q) mod N).
    { unfold X. replace ((p * 256 + b) * N + v) with ((b * N + v) + (p * t * N) * q) by (rewrite <- P8; ring).
      rewrite Z.div_add by lia. rewrite Z.mod_add by lia. reflexivity. }
    rewrite X1, X2. rewrite (Z.mul_comm 256 N). rewrite Z.rem_mul_r by lia. ring.
Qed.

Lemma right_align_spec : forall b, wf_bits b -> aligned b (right_align b).
Proof.
  intros b (O & L & W & M). unfold right_align, aligned, bits_val. cbv zeta. rewrite !addr_val_bval.
  set (n := Z.of_nat (length (bs_bytes b))) in *. set (u := 8 * n - bs_len b) in *.
  destruct (8 - bs_len b mod 8 =? 8) eqn:E.
  - assert (u = 0) as -> by lia. split; [exact O|]. split; [reflexivity|]. now rewrite Z.pow_0_r, Z.div_1_r.
  - assert (8 - bs_len b mod 8 = u) as -> by lia.
    destruct (shift_right_spec u (bs_bytes b) 0 ltac:(lia) O ltac:(lia)) as [S1 S2].
    split; [exact S1|]. split; [apply shift_right_length|]. rewrite S2, Z.mul_0_l, Z.add_0_l.
    pose proof (bval_bound _ O) as B. rewrite Z.mod_small; [reflexivity|].
    assert (0 < 2 ^ u) by (apply Z.pow_pos_nonneg; lia). split; [apply Z.div_pos; lia|].
    apply Z.div_lt_upper_bound; nia.
Qed.

Lemma nth_bval : forall l j, bytes_ok l = true -> (j < length l)%nat ->
  nth j l 0 = (bval l / 256 ^ (Z.of_nat (length l) - 1 - Z.of_nat j)) mod 256.
Proof.
  induction l as [|b l IH]; intros j O L; [cbn in L; lia|]. apply bytes_ok_cons in O as [Ob O].
  pose proof (bval_bound l O) as B. cbn [bval length] in *. destruct j as [|j].
  - cbn [nth]. replace (Z.of_nat (S (length l)) - 1 - Z.of_nat 0) with (Z.of_nat (length l)) by lia.
    rewrite Z.add_comm, Z.div_add by lia. rewrite Z.div_small by lia. rewrite Z.mod_small; lia.
  - cbn [nth]. rewrite (IH j O ltac:(lia)). set (k := Z.of_nat (length l)) in *.
    replace (Z.of_nat (S (length l)) - 1 - Z.of_nat (S j)) with (k - 1 - Z.of_nat j) by lia.
    set (m := k - 1 - Z.of_nat j). assert (Hm : 0 <= m < k) by lia.
    replace (256 ^ k) with (256 ^ (k - m - 1) * 256 * 256 ^ m).
    2:{ change 256 with (256 ^ 1) at 2. rewrite <- !Z.pow_add_r by lia. f_equal. lia. }
    assert (0 < 256 ^ m) by (apply Z.pow_pos_nonneg; lia).
    replace (b * (256 ^ (k - m - 1) * 256 * 256 ^ m) + bval l) with (bval l + b * 256 ^ (k - m - 1) * 256 * 256 ^ m) by ring.
    rewrite Z.div_add by lia. rewrite Z.mod_add by lia. reflexivity.
Qed.

Lemma bit_at_spec : forall b i, wf_bits b -> 0 <= i -> bit_at b i = true <-> has_bit b i.
Proof.
  intros b i (O & L & W & M) Hi. unfold bit_at, has_bit, bits_val. rewrite addr_val_bval.
  destruct ((i <? 0) || (bs_len b <=? i)) eqn:E; [split; [discriminate|intros [X _]; lia]|].
  set (n := Z.of_nat (length (bs_bytes b))) in *. set (u := 8 * n - bs_len b) in *.
  rewrite nth_bval by (exact O || lia). fold n. rewrite Z2Nat.id by lia.
  rewrite <- (Z.shiftr_div_pow2 (bval (bs_bytes b)) u) by lia. rewrite Z.shiftr_spec by lia.
  replace (bs_len b - 1 - i + u) with (8 * n - 1 - i) by lia.
  assert (T : (bval (bs_bytes b) / 256 ^ (n - 1 - i / 8)) mod 256 / 2 ^ (7 - i mod 8) mod 2 =
              Z.b2z (Z.testbit (bval (bs_bytes b)) (8 * n - 1 - i))).
  { set (v := bval (bs_bytes b)). rewrite Z.testbit_spec' by lia.
    change 256 with (2 ^ 8). rewrite <- Z.pow_mul_r by lia.
    rewrite <- !Z.shiftr_div_pow2 by lia. rewrite <- !Z.land_ones by lia.
    rewrite Z.shiftr_land. rewrite Z.shiftr_shiftr by lia.
    replace (8 * (n - 1 - i / 8) + (7 - i mod 8)) with (8 * n - 1 - i) by lia.
    rewrite <- !Z.bit0_mod. f_equal.
    rewrite Z.land_spec, Z.shiftr_spec, Z.shiftr_spec by lia. rewrite Z.ones_spec_low by lia. apply andb_true_r. }
  rewrite T. destruct (Z.testbit _ _); cbn; split; [intros _; split; [lia|reflexivity]|reflexivity|discriminate|intros [_ X]; discriminate].
Qed.

(** ** What extensions state *)
Lemma stated_cons : forall {A} id (P : bytes -> A -> Prop) z z1 e l a,
  (e_id e = id -> P (e_value e) z1) -> (e_id e <> id -> z1 = z) -> stated id P z1 l a -> stated id P z (e :: l) a.
Proof.
  intros A id P z z1 e l a H1 H2 [[N ->]|(x & (l1 & l2 & -> & I & N) & Q)].
  - destruct (oid_eqb_spec (e_id e) id) as [E|E].
    + right. exists e. split; [|now apply H1]. exists [], l. auto.
    + left. split; [|now apply H2]. intros x [<-|X]; [exact E|now apply N].
  - right. exists x. split; [|exact Q]. exists (e :: l1), l2. auto.
Qed.

Lemma usage_inv : forall d b, bytes_ok d = true ->
  read_as GBits (fun v => match v with VBits b => Some b | _ => None end) d = Some b -> usage_octets d (usage_bits b).
Proof.
  intros d b O H. unfold read_as, unmarshal in H. destruct (parse_field GBits p0 d) as [[v r]|] eqn:E; [|discriminate].
  destruct (bits_inv p0 _ _ _ ltac:(repeat split) eq_refl O E) as (e & c & b' & -> & -> & C & _ & B). apply some_eq in H. subst b'.
  exists e, r, c, b. split; [reflexivity|]. split; [exact C|]. split; [exact B|]. split; [reflexivity|].
  destruct B as (u & _ & _ & _ & W). intros i Hi. rewrite <- (bit_at_spec b (Z.of_nat i) W ltac:(lia)).
  do 9 (destruct i as [|i]; [reflexivity|]). lia.
Qed.

Lemma basic_inv : forall d k, bytes_ok d = true ->
  read_as t_basic (fun v => match v with VStruct _ [VBool b; VInt _] => Some b | _ => None end) d = Some k -> basic_octets d (Some k).
Proof.
  intros d k O H. unfold read_as, unmarshal, t_basic in H. destruct (parse_field _ p0 d) as [[v r]|] eqn:E; [|discriminate].
  destruct (struct_inv _ _ _ _ O E) as (e & c & vs & -> & -> & C & Lc & Oc & F).
  apply fields_cons in F. destruct F as (v1 & c1 & w1 & P1 & F & ->).
  destruct (flag_inv _ _ _ Oc P1) as (e1 & k1 & -> & -> & F1). apply bytes_ok_app in Oc as [_ Oc].
  apply fields_cons in F. destruct F as (v2 & c2 & w2 & P2 & F & ->). cbn [parse_fields] in F. apply some_eq in F. subst w2.
  destruct v2; try discriminate. apply some_eq in H. subst k1.
  exists e, e1, c1, r, k. auto 10.
Qed.

Lemma authority_inv : forall d k, bytes_ok d = true ->
  read_as t_auth_key (fun v => match v with VStruct _ [VOctets k] => Some k | _ => None end) d = Some k -> authority_octets d k.
Proof.
  intros d k O H. unfold read_as, unmarshal, t_auth_key in H. destruct (parse_field _ p0 d) as [[v r]|] eqn:E; [|discriminate].
  destruct (struct_inv _ _ _ _ O E) as (e & c & vs & -> & -> & C & Lc & Oc & F).
  apply fields_cons in F. destruct F as (v1 & c1 & w1 & P1 & F & ->). cbn [parse_fields] in F. apply some_eq in F. subst w1.
  destruct (tagged_inv 0 GOctets 4 false _ _ _ ltac:(lia) eq_refl Oc P1) as [[-> ->]|(e1 & b & h & f & -> & C1 & Ob & D)].
  - apply some_eq in H. subst k. exists e, [], c, r. auto 10.
  - cbn [decode_inner] in D. apply some_eq in D. subst v1. apply some_eq in H. subst b. exists e, e1, c1, r. auto 10.
Qed.

Lemma key_id_inv : forall d k, bytes_ok d = true -> decode_key_identifier d = Some k -> key_id_octets d k.
Proof.
  intros d k O H. unfold decode_key_identifier, read_as, unmarshal in H. destruct (parse_field GOctets p0 d) as [[v r]|] eqn:E; [|discriminate].
  destruct (octets_inv _ _ _ O E) as (e & c & -> & -> & C). apply some_eq in H. subst c. exists e, r. auto.
Qed.

Section Facts.
Variable keep : bool.

Lemma add_fact_inv : forall e f g, bytes_ok (e_value e) = true -> add_fact keep e f = Some g ->
  ((e_id e = subject_key_id -> key_id_octets (e_value e) (fa_ski g)) /\ (e_id e <> subject_key_id -> fa_ski g = fa_ski f)) /\
  ((e_id e = key_usage_id -> usage_octets (e_value e) (fa_usage g)) /\ (e_id e <> key_usage_id -> fa_usage g = fa_usage f)) /\
  ((e_id e = basic_id -> basic_octets (e_value e) (fa_basic g)) /\ (e_id e <> basic_id -> fa_basic g = fa_basic f)) /\
  ((e_id e = authority_key_id -> authority_octets (e_value e) (fa_aki g) \/
      keep = true /\ authority_octets (e_value e) [] /\ fa_aki g = fa_aki f) /\
   (e_id e <> authority_key_id -> fa_aki g = fa_aki f)).
Proof.
  intros e f g O H. unfold add_fact in H.
  destruct (oid_eqb_spec (e_id e) [2; 5; 29; 15]) as [E1|E1].
  { destruct (read_as GBits _ (e_value e)) as [b|] eqn:R; [|discriminate]. apply some_eq in H. subst g. cbn [fa_ski fa_aki fa_usage fa_basic].
    rewrite E1. unfold subject_key_id, key_usage_id, basic_id, authority_key_id.
    split; [split; [discriminate|reflexivity]|]. split; [split; [intros _; exact (usage_inv _ _ O R)|congruence]|].
    split; split; try discriminate; reflexivity. }
  destruct (oid_eqb_spec (e_id e) [2; 5; 29; 19]) as [E2|E2].
  { destruct (read_as t_basic _ (e_value e)) as [b|] eqn:R; [|discriminate]. apply some_eq in H. subst g. cbn [fa_ski fa_aki fa_usage fa_basic].
    rewrite E2. unfold subject_key_id, key_usage_id, basic_id, authority_key_id.
    split; [split; [discriminate|reflexivity]|]. split; [split; [discriminate|reflexivity]|].
    split; [split; [intros _; exact (basic_inv _ _ O R)|congruence]|]. split; try discriminate; reflexivity. }
  destruct (oid_eqb_spec (e_id e) [2; 5; 29; 35]) as [E3|E3].
  { destruct (read_as t_auth_key _ (e_value e)) as [k|] eqn:R; [|discriminate]. apply some_eq in H. subst g. cbn [fa_ski fa_aki fa_usage fa_basic].
    rewrite E3. unfold subject_key_id, key_usage_id, basic_id, authority_key_id.
    split; [split; [discriminate|reflexivity]|]. split; [split; [discriminate|reflexivity]|]. split; [split; [discriminate|reflexivity]|].
    split; [|congruence]. intros _. pose proof (authority_inv _ _ O R) as A.
    destruct k as [|b k]; [|left; exact A]. destruct keep; [right; auto|left; exact A]. }
  destruct (oid_eqb_spec (e_id e) [2; 5; 29; 14]) as [E4|E4].
  { destruct (decode_key_identifier (e_value e)) as [k|] eqn:R; [|discriminate]. apply some_eq in H. subst g. cbn [fa_ski fa_aki fa_usage fa_basic].
    rewrite E4. unfold subject_key_id, key_usage_id, basic_id, authority_key_id.
    split; [split; [intros _; exact (key_id_inv _ _ O R)|congruence]|]. split; [split; [discriminate|reflexivity]|].
    split; split; try discriminate; reflexivity. }
  apply some_eq in H. subst g. unfold subject_key_id, key_usage_id, basic_id, authority_key_id.
  split; [|split; [|split]]; split; try congruence.
Qed.

(** The same with an authority key [k0] from before *)
Definition authority_from (k0 : bytes) (l : list extension) (k : bytes) : Prop :=
  (k = k0 /\ forall x, In x l -> e_id x = authority_key_id -> keep = true /\ authority_octets (e_value x) []) \/
  (exists l1 e l2, l = l1 ++ e :: l2 /\ e_id e = authority_key_id /\ authority_octets (e_value e) k /\
     forall x, In x l2 -> e_id x = authority_key_id -> keep = true /\ authority_octets (e_value x) []).

Lemma authority_whole : forall l k, authority_from [] l k -> authority_stated keep l k.
Proof.
  intros l k [[-> N]|S]; [|now right].
  assert (D : none_of authority_key_id l \/ exists l1 e l2, l = l1 ++ e :: l2 /\ e_id e = authority_key_id).
  { clear N. induction l as [|x l [IH|(l1 & e & l2 & -> & E)]].
    - left. intros x [].
    - destruct (oid_eqb_spec (e_id x) authority_key_id) as [E|E].
      + right. exists [], x, l. auto.
      + left. intros y [<-|Y]; [exact E|now apply IH].
    - right. exists (x :: l1), e, l2. auto. }
  destruct D as [D|(l1 & e & l2 & -> & E)]; [left; auto|]. right. exists l1, e, l2.
  split; [reflexivity|]. split; [exact E|]. split; [apply N; [apply in_or_app; right; now left|exact E]|].
  intros x X. apply N. apply in_or_app. right. now right.
Qed.

Lemma add_facts_inv : forall l f g, Forall (fun a => bytes_ok (e_value a) = true) l -> add_facts keep l f = Some g ->
  stated subject_key_id key_id_octets (fa_ski f) l (fa_ski g) /\
  stated key_usage_id usage_octets (fa_usage f) l (fa_usage g) /\
  stated basic_id basic_octets (fa_basic f) l (fa_basic g) /\
  authority_from (fa_aki f) l (fa_aki g).
Proof.
  induction l as [|e l IH]; intros f g O H; cbn [add_facts] in H.
  - apply some_eq in H. subst g.
    assert (Z : forall A id (P : bytes -> A -> Prop) z, stated id P z [] z) by (intros; left; split; [intros x []|reflexivity]).
    split; [apply Z|]. split; [apply Z|]. split; [apply Z|]. left. split; [reflexivity|intros x []].
  - destruct (add_fact keep e f) as [f1|] eqn:E; [|discriminate]. inversion O as [|? ? O1 O2]; subst.
    destruct (add_fact_inv _ _ _ O1 E) as ((A1 & A2) & (B1 & B2) & (C1 & C2) & (D1 & D2)).
    destruct (IH _ _ O2 H) as (I1 & I2 & I3 & I4).
    split; [exact (stated_cons _ _ _ _ _ _ _ A1 A2 I1)|]. split; [exact (stated_cons _ _ _ _ _ _ _ B1 B2 I2)|].
    split; [exact (stated_cons _ _ _ _ _ _ _ C1 C2 I3)|].
    destruct I4 as [[K N]|(l1 & x & l2 & -> & X & Q & N)]; [|right; exists (e :: l1), x, l2; auto].
    destruct (oid_eqb_spec (e_id e) authority_key_id) as [Y|Y].
    + destruct (D1 Y) as [Q|(Kp & Q & Z)].
      * right. exists [], e, l. rewrite K. auto.
      * left. split; [congruence|]. intros x [<-|X]; [auto|now apply N].
    + left. split; [rewrite K; now apply D2|]. intros x [<-|X] Z; [congruence|now apply N].
Qed.
End Facts.

(** ** The extensions that the code itself reads *)
Definition pair_of (e : extension) : list Z * bytes := (e_id e, e_value e).

Lemma method_meaning : forall l, Forall2 access_meaning l (map (fun x => (method_of (fst x), snd x)) l).
Proof.
  induction l as [|[o n] l IH]; [constructor|]. cbn [map]. constructor; [|exact IH]. split; [reflexivity|].
  cbn [fst snd]. unfold method_of, access_methods. cbn [In].
  destruct (oid_eqb_spec o [1; 3; 6; 1; 5; 5; 7; 48; 10]) as [->|N1]; [left; auto|].
  destruct (oid_eqb_spec o [1; 3; 6; 1; 5; 5; 7; 48; 5]) as [->|N2]; [left; auto|].
  destruct (oid_eqb_spec o [1; 3; 6; 1; 5; 5; 7; 48; 13]) as [->|N3]; [left; auto|].
  right. split; [|reflexivity]. intros k [E|[E|[E|[]]]]; congruence.
Qed.

Lemma decode_extensions_inv : forall l c c', Forall (fun a => bytes_ok (e_value a) = true) l ->
  decode_extensions (map pair_of l) c = Some c' ->
  stated addresses_id ip_extension (c_ips c) l (c_ips c') /\
  stated numbers_id (fun d a => exists rdi, as_extension d a rdi) (c_asns c) l (c_asns c') /\
  stated access_id access_stated (c_sia c) l (c_sia c') /\
  c' = set_sia (set_asns (set_ips c (c_ips c')) (c_asns c')) (c_sia c').
Proof.
  induction l as [|e l IH]; intros c c' O H; cbn [map decode_extensions] in H.
  - apply some_eq in H. subst c'.
    assert (Z : forall A id (P : bytes -> A -> Prop) z, stated id P z [] z) by (intros; left; split; [intros x []|reflexivity]).
    split; [apply Z|]. split; [apply Z|]. split; [apply Z|]. now destruct c.
  - inversion O as [|? ? O1 O2]; subst. change (pair_of e) with (e_id e, e_value e) in H. cbv iota beta in H.
    assert (K : forall c1, decode_extensions (map pair_of l) c1 = Some c' ->
      ((e_id e = addresses_id -> ip_extension (e_value e) (c_ips c1)) /\ (e_id e <> addresses_id -> c_ips c1 = c_ips c)) ->
      ((e_id e = numbers_id -> exists rdi, as_extension (e_value e) (c_asns c1) rdi) /\ (e_id e <> numbers_id -> c_asns c1 = c_asns c)) ->
      ((e_id e = access_id -> access_stated (e_value e) (c_sia c1)) /\ (e_id e <> access_id -> c_sia c1 = c_sia c)) ->
      (forall x y z, set_sia (set_asns (set_ips c1 x) y) z = set_sia (set_asns (set_ips c x) y) z) ->
      stated addresses_id ip_extension (c_ips c) (e :: l) (c_ips c') /\
      stated numbers_id (fun d a => exists rdi, as_extension d a rdi) (c_asns c) (e :: l) (c_asns c') /\
      stated access_id access_stated (c_sia c) (e :: l) (c_sia c') /\
      c' = set_sia (set_asns (set_ips c (c_ips c')) (c_asns c')) (c_sia c')).
    { intros c1 D (A1 & A2) (B1 & B2) (C1 & C2) X. destruct (IH _ _ O2 D) as (I1 & I2 & I3 & I4).
      split; [exact (stated_cons _ _ _ _ _ _ _ A1 A2 I1)|]. split; [exact (stated_cons _ _ _ _ _ _ _ B1 B2 I2)|].
      split; [exact (stated_cons _ _ _ _ _ _ _ C1 C2 I3)|]. now rewrite <- X. }
    destruct (oid_eqb_spec (e_id e) [1; 3; 6; 1; 5; 5; 7; 1; 7]) as [E|E1].
    { destruct (decode_ip_ext (e_value e)) as [ips ok] eqn:D. destruct ok; [|discriminate].
      apply (K _ H); rewrite ?E; try (split; [discriminate|reflexivity]); [|reflexivity].
      split; [intros _; exact (ip_ext_grammar _ _ O1 D)|unfold addresses_id; congruence]. }
    destruct (oid_eqb_spec (e_id e) [1; 3; 6; 1; 5; 5; 7; 1; 8]) as [E|E2].
    { destruct (decode_as_ext (e_value e)) as [[nums rdi] ok] eqn:D. destruct ok; [|discriminate].
      apply (K _ H); rewrite ?E; try (split; [discriminate|reflexivity]); [|reflexivity].
      split; [intros _; exists rdi; exact (as_ext_grammar _ _ _ O1 D)|unfold numbers_id; congruence]. }
    destruct (oid_eqb_spec (e_id e) [1; 3; 6; 1; 5; 5; 7; 1; 11]) as [E|E3].
    { destruct (decode_sia (e_value e)) as [s|] eqn:D; [|discriminate].
      apply (K _ H); rewrite ?E; try (split; [discriminate|reflexivity]); [|reflexivity].
      split; [|unfold access_id; congruence]. intros _. exists s. split; [exact (access_grammar _ _ O1 D)|apply method_meaning]. }
    apply (K _ H); [| | |reflexivity]; (split; [|reflexivity]); unfold addresses_id, numbers_id, access_id; congruence.
Qed.

(** ** Keys *)
Lemma key_number_rsa : forall o, key_number o =? 1 = true <-> o = rsa_id.
Proof.
  intros o. unfold key_number. destruct (oid_eqb_spec o [1; 2; 840; 113549; 1; 1; 1]) as [E|E]; [split; [intros _; exact E|reflexivity]|].
  split; [|intros X; now apply E in X]. destruct (oid_eqb o [1; 2; 840; 10040; 4; 1]); [intros X; discriminate X|].
  destruct (oid_eqb o [1; 2; 840; 10045; 2; 1]); [intros X; discriminate X|].
  destruct (oid_eqb o [1; 3; 101; 112]); intros X; discriminate X.
Qed.

Lemma key_of_inv : forall x k, wf_bits (xc_key x) -> key_of x = Some k ->
  (exists n e, k = RSAPtr n e /\ rsa_certificate x n e) \/
  (fst (xc_key_alg x) <> rsa_id /\ exists l, aligned (xc_key x) l /\ k = OtherKey l).
Proof.
  intros x k W H. unfold key_of in H. pose proof (key_number_rsa (fst (xc_key_alg x))) as KN.
  pose proof (right_align_spec _ W) as A.
  destruct (key_number (fst (xc_key_alg x)) =? 1) eqn:E.
  - left. destruct (beq (snd (xc_key_alg x)) null_octets) eqn:B; [|discriminate]. apply beq_eq in B. cbn [negb] in H.
    destruct (unmarshal t_rsa_key (right_align (xc_key x))) as [[v r]|] eqn:U; [|discriminate].
    unfold unmarshal, t_rsa_key in U. pose proof A as (O & _).
    destruct (struct_inv _ _ _ _ O U) as (s & c & vs & Es & -> & C & Lc & Oc & F).
    apply fields_cons in F. destruct F as (v1 & c1 & w1 & P1 & F & ->).
    destruct (big_inv _ _ _ Oc P1) as (e1 & k1 & n & -> & -> & C1 & N1). apply bytes_ok_app in Oc as [_ Oc].
    apply fields_cons in F. destruct F as (v2 & c2 & w2 & P2 & F & ->). cbn [parse_fields] in F. apply some_eq in F. subst w2.
    destruct (int_inv _ _ _ Oc P2) as (e2 & k2 & m & -> & -> & C2 & I2).
    destruct ((0 <? n) && (0 <? m)) eqn:P; [|discriminate]. apply some_eq in H. exists n, m. split; [now symmetry|].
    exists (right_align (xc_key x)). split; [now apply KN|]. split; [exact B|]. split; [exact A|]. split; [|lia].
    rewrite Es. exact (rsa_one s e1 e2 c2 r k1 k2 n m C C1 N1 C2 I2).
  - right. split; [intros X; apply KN in X; congruence|]. apply some_eq in H. eauto.
Qed.

(** ** Signatures *)
Lemma key_size_spec : forall n, 0 < n -> (1 <= key_size n)%nat /\
  256 ^ (Z.of_nat (key_size n) - 1) <= n < 256 ^ Z.of_nat (key_size n).
Proof.
  intros n N. unfold key_size. pose proof (Z.log2_spec n N) as [L U]. pose proof (Z.log2_nonneg n) as G.
  set (b := Z.log2 n) in *. rewrite Z2Nat.id by lia. split; [lia|].
  assert (E : forall q, 0 <= q -> 256 ^ q = 2 ^ (8 * q)) by (intros q Q; change 256 with (2 ^ 8); now rewrite <- Z.pow_mul_r by lia).
  rewrite !E by lia. split.
  - apply Z.le_trans with (2 ^ b); [apply Z.pow_le_mono_r; lia|exact L].
  - apply Z.lt_le_trans with (2 ^ Z.succ b); [exact U|apply Z.pow_le_mono_r; lia].
Qed.

Lemma rsa_verify_spec : forall n e h sig, 0 < n -> rsa_verify n e h sig = true -> pkcs1_signature n (Zpos e) h sig.
Proof.
  intros n e h sig N H. unfold rsa_verify in H. cbv zeta in H. destruct (key_size_spec n N) as (K & B).
  set (k := key_size n) in *. apply andb_true_iff in H as [H Q]. apply andb_true_iff in H as [H1 H2].
  apply beq_eq in Q. apply Nat.leb_le in H1. apply Nat.eqb_eq in H2.
  exists (repeat 255 (k - 3 - length (digest_info ++ h))). split; [apply Forall_forall; intros x X; exact (repeat_spec _ _ _ X)|].
  rewrite repeat_length. split; [lia|]. cbv zeta. change sha256_info with digest_info.
  set (em := [0; 1] ++ repeat 255 (k - 3 - length (digest_info ++ h)) ++ [0] ++ digest_info ++ h) in *.
  assert (L : length em = k) by (rewrite <- Q; apply be_length).
  rewrite L. split; [exact H2|]. split; [exact B|]. rewrite <- Q.
  change (addr_val (be_bytes k (pow_mod (int_of_bytes sig) e n))) with (be_value (be_bytes k (pow_mod (int_of_bytes sig) e n))).
  rewrite be_value_bytes, pow_mod_spec by exact N. change (int_of_bytes sig) with (addr_val sig).
  symmetry. apply Z.mod_small. pose proof (Z.mod_pos_bound (addr_val sig ^ Zpos e) n N). lia.
Qed.
