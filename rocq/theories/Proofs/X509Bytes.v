(** What is known of the octets from which fields of certificates are read. *)
From Coq Require Import Lia ZifyBool ZifyNat Bool.
From Verif.Model Require Import Base Str NetIP CertRes Ber Asn1 GoTime Der Tal Cms Validator ObjDer TalDer X509.
From Verif.Spec Require Import Addr Bits BerSpec IpExtSpec TimeSpec ContentSpec SignedSpec TalSpec X509Spec.
From Verif.Proofs Require Import NetIPProofs BerProofs Asn1Proofs DerPrim DerProofs DerBytes ObjEncode ObjBytes ContentProofs SignedProofs TimeProofs.
Ltac Zify.zify_post_hook ::= Z.div_mod_to_equations.

(** ** Optional fields *)
Definition p_maybe (d : option Z) : params := mkP true false d None 0 false false false.

Lemma maybe_inv : forall d t l v r, parse_field t (p_maybe d) l = Some (v, r) ->
  parse_field t p0 l = Some (v, r) \/
  (default_value (p_maybe d) t = Some v /\ r = l /\ (t = GRaw -> l = [])).
Proof.
  intros d t l v r H. rewrite field_raw in H by reflexivity. rewrite field_raw by reflexivity.
  assert (M : forall h, matches (p_maybe d) t h = matches p0 t h) by (intros h; destruct t; reflexivity).
  assert (D : forall h a b, decode_inner t (p_maybe d) h a b = decode_inner t p0 h a b) by (intros; destruct t; reflexivity).
  destruct l as [|b l'].
  - right. destruct (default_value (p_maybe d) t) as [w|]; [|discriminate]. apply some_eq in H.
    assert (w = v) by congruence. assert (r = []) by congruence. subst. auto.
  - set (l := b :: l') in *. clearbody l. destruct (parse_header l) as [[h s]|]; [|discriminate].
    rewrite M in H. destruct (matches p0 t h) eqn:E.
    + left. destruct (parse_raw l) as [[x rest]|]; [|discriminate]. rewrite D in H. exact H.
    + right. destruct (default_value (p_maybe d) t) as [w|]; [|discriminate]. apply some_eq in H.
      assert (w = v) by congruence. assert (r = l) by congruence. subst. split; [reflexivity|]. split; [reflexivity|].
      intros ->. discriminate.
Qed.

(** ** Fields inside an explicit tag *)
Definition p_around (d : option Z) (k : Z) : params := mkP true true d (Some k) 0 false false false.

Lemma around_inv : forall d k t l v r, 0 <= k < 31 -> t <> GRaw ->
  (forall h a f f', decode_inner t (p_around d k) h a f = decode_inner t p0 h a f') ->
  bytes_ok l = true -> parse_field t (p_around d k) l = Some (v, r) ->
  (default_value (p_around d k) t = Some v /\ r = l) \/
  exists lw n l1, l = 160 + k :: lw ++ l1 /\ der_len n lw /\ 0 < n /\ parse_field t p0 l1 = Some (v, r).
Proof.
  intros d k t l v r K NR DI O H. rewrite parse_field_eq in H. cbv zeta in H.
  assert (Dflt : match default_value (p_around d k) t with Some v0 => Some (v0, l) | None => None end = Some (v, r) ->
                 default_value (p_around d k) t = Some v /\ r = l).
  { destruct (default_value (p_around d k) t) as [w|]; [|discriminate]. intros E. apply some_eq in E.
    assert (w = v) by congruence. assert (r = l) by congruence. subst. auto. }
  destruct l as [|b l']; [left; apply Dflt; exact H|]. set (l := b :: l') in *. clearbody l.
  destruct (parse_header l) as [[h r0]|] eqn:Eh; [|discriminate].
  destruct (open_explicit (p_around d k) t h r0) as [h' r'| |] eqn:OE; [|left; now apply Dflt|discriminate].
  unfold open_explicit in OE. cbn [p_around p_explicit p_tag] in OE. destruct r0 as [|y r0']; [discriminate|]. set (r0 := y :: r0') in *.
  destruct ((h_class h =? 2) && (h_tag h =? k) && ((h_len h =? 0) || h_cons h)) eqn:Q; [|discriminate].
  assert (T : (if 0 <? h_len h then match parse_header r0 with Some (h', r') => Go h' r' | None => Fail end else Fail) = Go h' r').
  { destruct t; try exact OE. congruence. }
  clear OE. destruct (0 <? h_len h) eqn:L; [|discriminate].
  destruct (parse_header r0) as [[h2 r2]|] eqn:E2; [|discriminate]. injection T as -> ->.
  assert (M : matches (p_around d k) t h' = matches p0 t h') by (destruct t; reflexivity).
  rewrite M in H. destruct (matches p0 t h') eqn:EM; cbn [negb] in H; [|left; now apply Dflt]. right.
  destruct (header_inv _ _ _ O Eh ltac:(lia)) as (lo & El & Hd & Hp).
  exists lo, (h_len h), r0. split; [rewrite El; f_equal; destruct (h_cons h); cbn [Z.b2z]; lia|]. split; [exact Hd|]. split; [lia|].
  rewrite parse_field_eq. cbv zeta. unfold r0 at 1. rewrite E2. unfold open_explicit. change (p_explicit p0) with false. cbv iota.
  rewrite EM. cbn [negb]. destruct (Z.of_nat (length r') <? h_len h'); [discriminate|].
  rewrite <- H. f_equal. symmetry. apply DI.
Qed.

(** ** Fields with an implicit tag *)
Lemma tagged_inv : forall k t u c l v r, 0 <= k < 31 -> universal t = Some (u, c) -> bytes_ok l = true ->
  parse_field t (p_opt_tag k) l = Some (v, r) ->
  (v = zero_of t /\ r = l) \/
  exists e b h f, l = e ++ r /\ coded (128 + 32 * Z.b2z c + k) b e /\ bytes_ok b = true /\ decode_inner t (p_opt_tag k) h b f = Some v.
Proof.
  intros k t u c l v r K U O H. rewrite field_raw in H by reflexivity.
  assert (D : default_value (p_opt_tag k) t = Some (zero_of t)) by (unfold default_value; destruct t; reflexivity). rewrite D in H.
  destruct l as [|b l']; [left; apply some_eq in H; split; congruence|]. set (l := b :: l') in *. clearbody l.
  destruct (parse_header l) as [[h s]|] eqn:Eh; [|discriminate].
  destruct (matches (p_opt_tag k) t h) eqn:M; [|left; apply some_eq in H; split; congruence]. right.
  destruct (parse_raw l) as [[x rest]|] eqn:R; [|discriminate].
  destruct (decode_inner t (p_opt_tag k) h (r_bytes x) (r_full x)) as [w|] eqn:DI; [|discriminate]. cbn [opt_map] in H. apply some_eq in H.
  assert (w = v) by congruence. assert (rest = r) by congruence. subst w rest.
  destruct (header_raw _ _ _ _ _ Eh R) as (C1 & C2 & C3).
  unfold matches in M. rewrite U in M. cbn [p_opt_tag p_tag p_explicit negb andb orb] in M.
  apply andb_true_iff in M as [M M3]. apply andb_true_iff in M as [M1 M2]. apply Bool.eqb_prop in M3.
  destruct (raw_coded _ _ _ O R ltac:(lia)) as (El & C & _).
  exists (r_full x), (r_bytes x), h, (r_full x). split; [exact El|].
  assert (C' : coded (128 + 32 * Z.b2z c + k) (r_bytes x) (r_full x)).
  { replace (128 + 32 * Z.b2z c + k) with (64 * r_class x + 32 * Z.b2z (r_cons x) + r_tag x); [exact C|].
    rewrite <- C2, M3. lia. }
  split; [exact C'|]. split; [|exact DI]. rewrite El in O. apply bytes_ok_app in O as [O _]. exact (coded_ok _ _ _ C' O).
Qed.

(** ** Structs with their octets *)
Lemma raw_struct_inv : forall fs l v r, bytes_ok l = true -> parse_field (GStruct true fs) p0 l = Some (v, r) ->
  exists e c vs, l = e ++ r /\ v = VStruct e vs /\ coded 48 c e /\ Z.of_nat (length c) < 2 ^ 31 /\ bytes_ok c = true /\
    parse_fields fs c = Some vs.
Proof.
  intros fs l v r O H. destruct (field_inv _ p0 l v r eq_refl eq_refl H) as (x & h & s & Eh & R & M & D & C1 & C2 & C3).
  unfold matches, wire_tag in M. cbn [universal p0 p_tag p_explicit p_set negb andb orb] in M.
  destruct (raw_coded _ _ _ O R ltac:(lia)) as (El & C & Lc).
  assert (C' : coded 48 (r_bytes x) (r_full x)).
  { replace 48 with (64 * r_class x + 32 * Z.b2z (r_cons x) + r_tag x); [exact C|].
    destruct (h_cons h) eqn:Hc; [|cbn in M; lia]. rewrite <- C2. cbn [Z.b2z]. lia. }
  assert (Oc : bytes_ok (r_bytes x) = true) by (rewrite El in O; apply bytes_ok_app in O as [O _]; exact (coded_ok _ _ _ C O)).
  cbn [decode_inner] in D. destruct (parse_fields fs (r_bytes x)) as [vs|] eqn:E; [|discriminate]. cbn [opt_map] in D. apply some_eq in D.
  exists (r_full x), (r_bytes x), vs. auto 10.
Qed.

(** ** The types used here *)
Lemma flag_inv : forall l v r, bytes_ok l = true -> parse_field GBool p_opt0 l = Some (v, r) ->
  exists e k, l = e ++ r /\ v = VBool k /\ flag e k.
Proof.
  intros l v r O H. destruct (maybe_inv None _ _ _ _ H) as [P|(D & -> & _)].
  - destruct (p0_inv GBool 1 false l v r eq_refl ltac:(discriminate) ltac:(discriminate) ltac:(lia) O P)
      as (e & c & h & full & -> & C & Lc & D). cbn [decode_inner] in D.
    destruct (parse_bool c) as [k|] eqn:E; [|discriminate]. apply some_eq in D. subst v. exists e, k.
    split; [reflexivity|]. split; [reflexivity|]. change (1 + 32 * Z.b2z false) with 1 in C.
    unfold parse_bool in E. destruct c as [|b [|b' c]]; [discriminate| |discriminate].
    destruct (b =? 0) eqn:Z0; [apply some_eq in E; subst k; assert (b = 0) by lia; subst b; now constructor|].
    destruct (b =? 255) eqn:Z1; [|discriminate]. apply some_eq in E; subst k; assert (b = 255) by lia; subst b; now constructor.
  - apply some_eq in D. subst v. exists [], false. split; [reflexivity|]. split; [reflexivity|apply flag_absent].
Qed.

Lemma any_inv : forall l v r, bytes_ok l = true -> parse_field GRaw p_opt0 l = Some (v, r) ->
  exists x, v = VRaw x /\ l = r_full x ++ r /\ (some_value (r_full x) \/ r_full x = [] /\ r = []).
Proof.
  intros l v r O H. destruct (maybe_inv None _ _ _ _ H) as [P|(D & -> & Q)].
  - destruct (raw_field_inv _ _ _ O P) as (x & -> & E & V & _). exists x. auto.
  - apply some_eq in D. subst v. rewrite (Q eq_refl). exists raw0. auto.
Qed.

Lemma alg_inv : forall l v a r, bytes_ok l = true -> parse_field t_alg p0 l = Some (v, r) -> alg_of v = Some a ->
  exists e, l = e ++ r /\ algorithm e a.
Proof.
  intros l v a r O H A. unfold t_alg in H. destruct (struct_inv _ _ _ _ O H) as (e & c & vs & -> & -> & C & Lc & Oc & F).
  apply fields_cons in F. destruct F as (v1 & c1 & w1 & P1 & F & ->).
  destruct (oid_inv _ _ _ Oc P1) as (e1 & k1 & o1 & -> & -> & C1 & I1). apply bytes_ok_app in Oc as [_ Oc].
  apply fields_cons in F. destruct F as (v2 & c2 & w2 & P2 & F & ->). cbn [parse_fields] in F. apply some_eq in F. subst w2.
  destruct (any_inv _ _ _ Oc P2) as (x & -> & E & V). cbn [alg_of] in A. apply some_eq in A. subst a.
  exists e. split; [reflexivity|]. rewrite E in C. exact (algorithm_one e e1 (r_full x) c2 k1 o1 C C1 I1 V).
Qed.

Lemma alg_typed : forall l v r, bytes_ok l = true -> parse_field t_alg p0 l = Some (v, r) -> exists a, alg_of v = Some a.
Proof.
  intros l v r O H. unfold t_alg in H. destruct (struct_inv _ _ _ _ O H) as (e & c & vs & -> & -> & C & Lc & Oc & F).
  apply fields_cons in F. destruct F as (v1 & c1 & w1 & P1 & F & ->).
  destruct (oid_inv _ _ _ Oc P1) as (e1 & k1 & o1 & -> & -> & C1 & I1). apply bytes_ok_app in Oc as [_ Oc].
  apply fields_cons in F. destruct F as (v2 & c2 & w2 & P2 & F & ->). cbn [parse_fields] in F. apply some_eq in F. subst w2.
  destruct (any_inv _ _ _ Oc P2) as (x & -> & E & V). cbn [alg_of]. eauto.
Qed.

Lemma extension_inv : forall l v a r, bytes_ok l = true -> parse_field t_extension p0 l = Some (v, r) -> extension_of v = Some a ->
  exists e, l = e ++ r /\ extension_octets e a.
Proof.
  intros l v a r O H A. unfold t_extension in H. destruct (struct_inv _ _ _ _ O H) as (e & c & vs & -> & -> & C & Lc & Oc & F).
  apply fields_cons in F. destruct F as (v1 & c1 & w1 & P1 & F & ->).
  destruct (oid_inv _ _ _ Oc P1) as (e1 & k1 & o1 & -> & -> & C1 & I1). apply bytes_ok_app in Oc as [_ Oc].
  apply fields_cons in F. destruct F as (v2 & c2 & w2 & P2 & F & ->).
  destruct (flag_inv _ _ _ Oc P2) as (e2 & k2 & -> & -> & F2). apply bytes_ok_app in Oc as [_ Oc].
  apply fields_cons in F. destruct F as (v3 & c3 & w3 & P3 & F & ->). cbn [parse_fields] in F. apply some_eq in F. subst w3.
  destruct (octets_inv _ _ _ Oc P3) as (e3 & k3 & -> & -> & C3). cbn [extension_of] in A. apply some_eq in A. subst a.
  exists e. split; [reflexivity|]. exact (extension_one e e1 e2 e3 c3 k1 o1 k2 k3 C C1 I1 F2 C3).
Qed.

Lemma extensions_inv : forall k l v r es, 0 <= k < 31 -> bytes_ok l = true -> parse_field (GSlice t_extension) (p_opt_wrapped k) l = Some (v, r) ->
  slice_of extension_of v = Some es -> exists e, l = e ++ r /\ wrapped_extensions k e es.
Proof.
  intros k l v r es K O H S. change (p_opt_wrapped k) with (p_around None k) in H.
  destruct (fun Q => around_inv None k (GSlice t_extension) l v r K Q) as [[D ->]|(lw & n & l1 & -> & Hn & N & P)]; try discriminate; try assumption.
  - intros; reflexivity.
  - apply some_eq in D. subst v. injection S as <-. exists []. split; [reflexivity|constructor].
  - apply bytes_ok_cons in O as [_ O]. apply bytes_ok_app in O as [_ O].
    destruct (slice_of_inv t_extension extension_of extension_octets extension_inv _ _ _ _ O P S) as (e & es' & -> & C & F).
    exists (160 + k :: lw ++ e). split; [cbn [app]; now rewrite <- app_assoc|]. exact (wrapped_some k lw n es' e es Hn N C F).
Qed.

Lemma time_value_inv : forall l v r, bytes_ok l = true -> parse_field GTime p0 l = Some (v, r) ->
  exists e t, l = e ++ r /\ v = VTime t /\ time_value e t.
Proof.
  intros l v r O H. apply time_inv; [exact O|]. rewrite field_raw in * by reflexivity. exact H.
Qed.

Lemma validity_inv : forall l v r, bytes_ok l = true -> parse_field t_validity p0 l = Some (v, r) ->
  exists e b t1 t2, l = e ++ r /\ v = VStruct b [VTime t1; VTime t2] /\ validity e t1 t2.
Proof.
  intros l v r O H. unfold t_validity in H. destruct (struct_inv _ _ _ _ O H) as (e & c & vs & -> & -> & C & Lc & Oc & F).
  apply fields_cons in F. destruct F as (v1 & c1 & w1 & P1 & F & ->).
  destruct (time_value_inv _ _ _ Oc P1) as (e1 & t1 & -> & -> & T1). apply bytes_ok_app in Oc as [_ Oc].
  apply fields_cons in F. destruct F as (v2 & c2 & w2 & P2 & F & ->). cbn [parse_fields] in F. apply some_eq in F. subst w2.
  destruct (time_value_inv _ _ _ Oc P2) as (e2 & t2 & -> & -> & T2).
  exists e, [], t1, t2. split; [reflexivity|]. split; [reflexivity|]. exact (validity_one e e1 e2 c2 t1 t2 C T1 T2).
Qed.

Lemma key_inv : forall l v r, bytes_ok l = true -> parse_field t_public_key p0 l = Some (v, r) ->
  exists e a va b, l = e ++ r /\ v = VStruct e [va; VBits b] /\ alg_of va = Some a /\ subject_key e a b.
Proof.
  intros l v r O H. unfold t_public_key in H. destruct (raw_struct_inv _ _ _ _ O H) as (e & c & vs & -> & -> & C & Lc & Oc & F).
  apply fields_cons in F. destruct F as (v1 & c1 & w1 & P1 & F & ->).
  destruct (alg_typed _ _ _ Oc P1) as (a & A). destruct (alg_inv _ _ _ _ Oc P1 A) as (e1 & -> & A1). apply bytes_ok_app in Oc as [_ Oc].
  apply fields_cons in F. destruct F as (v2 & c2 & w2 & P2 & F & ->). cbn [parse_fields] in F. apply some_eq in F. subst w2.
  destruct (bits_inv p0 _ _ _ ltac:(repeat split) eq_refl Oc P2) as (e2 & k2 & b & -> & -> & C2 & _ & B).
  exists e, a, v1, b. split; [reflexivity|]. split; [reflexivity|]. split; [exact A|].
  exact (key_one e e1 e2 c2 a k2 b C A1 C2 B).
Qed.

Lemma parse_bits_coded : forall c b, bytes_ok c = true -> parse_bitstring c = Some b -> bits_coded c b.
Proof.
  intros c b Oc E. pose proof (parse_bitstring_fit _ _ Oc E) as W. unfold parse_bitstring in E.
  destruct c as [|u c]; [discriminate|]. destruct (_ || _) eqn:K in E; [discriminate|]. apply some_eq in E. subst b.
  exists u. cbn [bs_bytes bs_len]. apply bytes_ok_cons in Oc as [Ou Oc].
  split; [reflexivity|]. split; [lia|]. split; [reflexivity|exact W].
Qed.

Lemma unique_inv : forall k l v r, 0 <= k < 31 -> bytes_ok l = true -> parse_field GBits (p_opt_tag k) l = Some (v, r) ->
  exists e b, l = e ++ r /\ v = VBits b /\ unique_id k e.
Proof.
  intros k l v r K O H. destruct (tagged_inv k GBits 3 false l v r K eq_refl O H) as [[-> ->]|(e & c & h & f & -> & C & Oc & D)].
  - exists [], (mkBits [] 0). split; [reflexivity|]. split; [reflexivity|now left].
  - cbn [decode_inner] in D. destruct (parse_bitstring c) as [b|] eqn:E; [|discriminate]. apply some_eq in D. subst v.
    exists e, b. split; [reflexivity|]. split; [reflexivity|]. right. exists c, b. split; [exact C|now apply parse_bits_coded].
Qed.

Lemma version_inv : forall l v r, bytes_ok l = true -> parse_field GInt p_version l = Some (v, r) ->
  exists e n, l = e ++ r /\ v = VInt n /\ version_octets e n.
Proof.
  intros l v r O H. change p_version with (p_around (Some 0) 0) in H.
  destruct (fun Q => around_inv (Some 0) 0 GInt l v r ltac:(lia) Q) as [[D ->]|(lw & n & l1 & -> & Hn & N & P)]; try discriminate; try assumption.
  - intros; reflexivity.
  - apply some_eq in D. subst v. exists [], 0. split; [reflexivity|]. split; [reflexivity|constructor].
  - apply bytes_ok_cons in O as [_ O]. apply bytes_ok_app in O as [_ O].
    destruct (int_inv _ _ _ O P) as (e & c & m & -> & -> & C & I). exists (160 :: lw ++ e), m.
    split; [cbn [app]; now rewrite <- app_assoc|]. split; [reflexivity|]. exact (version_given lw n c e m Hn N C I).
Qed.
