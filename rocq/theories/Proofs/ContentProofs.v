(** From octets accepted by the decoders of AS resources, access locations and
    manifest contents back to the grammars of [ContentSpec.v]. *)
From Coq Require Import Lia ZifyBool ZifyNat Bool.
From Verif.Model Require Import Base Str NetIP CertRes Roa Ber Asn1 GoTime Der Tal Cms Validator ObjDer.
From Verif.Spec Require Import Addr Resources Bits Canon BerSpec IpExtSpec ObjSpec TimeSpec ContentSpec.
From Verif.Proofs Require Import NetIPProofs BerProofs Asn1Proofs DerPrim DerProofs DerBytes ObjEncode ObjSign DerInside ObjBytes TimeProofs.
Ltac Zify.zify_post_hook ::= Z.div_mod_to_equations.

(** ** One value *)
Lemma raw_coded : forall l x r, bytes_ok l = true -> parse_raw l = Some (x, r) -> r_tag x < 31 ->
  l = r_full x ++ r /\ coded (64 * r_class x + 32 * Z.b2z (r_cons x) + r_tag x) (r_bytes x) (r_full x) /\
  Z.of_nat (length (r_bytes x)) < 2 ^ 31.
Proof.
  intros l x r O R T. destruct (parse_raw_inv _ _ _ O R) as (tg & lo & Ed & Ef & Hl & Hc & Ht & K1 & K2 & K3 & K4).
  destruct tg as [|y tg]; [congruence|]. cbn [hd] in *.
  assert (Oy : 0 <= y < 256) by (rewrite Ed in O; cbn [app] in O; apply bytes_ok_cons in O; tauto).
  destruct (Z.eq_dec (y mod 32) 31) as [X|X]; [apply K4 in X; lia|]. apply K3 in X. destruct X as [X Y]. injection X as ->.
  split; [rewrite Ef, Ed; cbn [app]; now rewrite <- app_assoc|]. split; [|exact Hc].
  exists lo. split; [exact Hl|]. rewrite Ef. cbn [app]. f_equal. rewrite K1, K2, Y.
  destruct (y / 32 mod 2 =? 0) eqn:E; cbn [negb Z.b2z]; lia.
Qed.

Lemma field_inv : forall t p l v r, p_explicit p = false -> p_opt p = false -> parse_field t p l = Some (v, r) ->
  exists x h s, parse_header l = Some (h, s) /\ parse_raw l = Some (x, r) /\ matches p t h = true /\
    decode_inner t p h (r_bytes x) (r_full x) = Some v /\
    h_class h = r_class x /\ h_cons h = r_cons x /\ h_tag h = r_tag x.
Proof.
  intros t p l v r E O H. rewrite field_raw in H by exact E.
  assert (D : default_value p t = None) by (unfold default_value; now rewrite O). rewrite D in H.
  destruct l as [|b l']; [discriminate|]. set (l := b :: l') in *. clearbody l.
  destruct (parse_header l) as [[h s]|] eqn:Eh; [|discriminate].
  destruct (matches p t h) eqn:M; [|discriminate].
  destruct (parse_raw l) as [[x rest]|] eqn:R; [|discriminate].
  destruct (decode_inner t p h (r_bytes x) (r_full x)) as [w|] eqn:Ed; [|discriminate]. cbn [opt_map] in H.
  assert (w = v) by congruence. assert (rest = r) by congruence. subst w rest.
  destruct (header_raw _ _ _ _ _ Eh R) as (C1 & C2 & C3). exists x, h, s. auto 10.
Qed.

(** ** Object identifiers *)
Lemma base128_split : forall k f acc l v r, bytes_ok l = true -> base128 k f acc l = Some (v, r) ->
  exists mid last, l = (mid ++ [last]) ++ r /\ Forall (fun x => 128 <= x < 256) mid /\ 0 <= last < 128 /\
    (f = true -> hd 0 (mid ++ [last]) <> 128) /\ v = fold_left (fun n x => n * 128 + x mod 128) (mid ++ [last]) acc /\ v < 2 ^ 31.
Proof.
  induction k as [|k IH]; intros f acc l v r O H; cbn [base128] in H; [discriminate|].
  destruct l as [|b l]; [discriminate|]. pose proof O as O'. apply bytes_ok_cons in O' as [Ob Ol].
  destruct (f && (b =? 128)) eqn:F; [discriminate|]. cbv zeta in H.
  destruct (b <? 128) eqn:B.
  - destruct (_ <? 2 ^ 31) eqn:L; [|discriminate]. exists [], b.
    assert (l = r) by congruence. assert (acc * 128 + b mod 128 = v) by congruence. subst.
    cbn [app hd fold_left]. split; [reflexivity|]. split; [constructor|]. repeat split; lia.
  - destruct (IH _ _ _ _ _ Ol H) as (mid & last & -> & M & L & _ & V & W). exists (b :: mid), last.
    cbn [app hd fold_left]. split; [reflexivity|]. split; [constructor; [lia|exact M]|]. split; [exact L|].
    split; [intros ->; cbn [andb] in F; lia|]. split; assumption.
Qed.
Lemma oid_split : forall k l vs, bytes_ok l = true -> oid_rest k l = Some vs -> exists bs, l = concat bs /\ Forall2 subidentifier bs vs.
Proof.
  induction k as [|k IH]; intros l vs O H.
  - destruct l; [|discriminate]. injection H as <-. exists []. split; [reflexivity|constructor].
  - destruct l as [|b l]; [injection H as <-; exists []; split; [reflexivity|constructor]|].
    cbn [oid_rest] in H. set (ll := b :: l) in *. clearbody ll.
    destruct (base128 5 true 0 ll) as [[v r]|] eqn:E; [|discriminate].
    destruct (oid_rest k r) as [ws|] eqn:R; [|discriminate]. apply some_eq in H. subst vs.
    destruct (base128_split _ _ _ _ _ _ O E) as (mid & last & -> & M & L & F & V & W).
    apply bytes_ok_app in O as [_ O]. destruct (IH r ws O R) as (bs & -> & F2).
    exists ((mid ++ [last]) :: bs). split; [reflexivity|]. constructor; [|exact F2].
    exists mid, last. auto 10.
Qed.
Lemma oid_value_coded : forall c o, bytes_ok c = true -> parse_oid_value c = Some o -> oid_coded c o.
Proof.
  intros c o O H. unfold parse_oid_value in H. destruct c as [|b c]; [discriminate|]. set (cc := b :: c) in *. clearbody cc.
  destruct (oid_rest (length cc) cc) as [[|v vs]|] eqn:E; try discriminate. apply some_eq in H. subst o.
  destruct (oid_split _ _ _ O E) as (bs & -> & F). exists bs, v, vs. split; [reflexivity|]. split; [exact F|].
  destruct (v <? 80) eqn:V; [left|right]; split; auto; lia.
Qed.
Lemma oid_inv : forall l v r, bytes_ok l = true -> parse_field GOid p0 l = Some (v, r) ->
  exists e c o, l = e ++ r /\ v = VOid o /\ coded 6 c e /\ oid_coded c o.
Proof.
  intros l v r O H.
  destruct (p0_inv GOid 6 false l v r eq_refl ltac:(discriminate) ltac:(discriminate) ltac:(lia) O H)
    as (e & c & h & full & -> & C & Lc & D). apply bytes_ok_app in O as [O _]. pose proof (coded_ok _ _ _ C O) as Oc.
  cbn [decode_inner] in D. destruct (parse_oid_value c) as [o|] eqn:E; [|discriminate]. cbn [opt_map] in D. injection D as <-.
  exists e, c, o. split; [reflexivity|]. split; [reflexivity|]. split; [exact C|now apply oid_value_coded].
Qed.

(** ** AS resources *)
Lemma as_elem_inv : forall d r rest l, bytes_ok d = true -> parse_raw d = Some (r, rest) ->
  decode_as_list [as_elem r] = (l, true) -> as_element (r_full r) l.
Proof.
  intros d r rest l O R H. destruct (raw_any _ _ _ O R) as (tg & Ed & A & T1 & T2).
  assert (Of : bytes_ok (r_full r) = true) by (rewrite Ed in O; now apply bytes_ok_app in O).
  unfold as_elem in H. destruct (r_tag r =? 16) eqn:E16.
  - unfold read_as, unmarshal, t_as_range in H. destruct (parse_field _ p0 (r_full r)) as [[v s]|] eqn:P; [|discriminate].
    destruct (struct_inv _ _ _ _ Of P) as (e & c & vs & X & -> & C & Lc & Oc & F).
    destruct (reread _ _ _ _ _ _ _ O R X C ltac:(lia) Lc) as [-> _]. rewrite app_nil_r in X. rewrite X.
    apply fields_cons in F. destruct F as (v1 & c1 & ws & P1 & F & ->).
    destruct (int_inv _ _ _ Oc P1) as (e1 & k1 & a & -> & -> & C1 & I1). apply bytes_ok_app in Oc as [_ Oc].
    apply fields_cons in F. destruct F as (v2 & c2 & ws2 & P2 & F & ->).
    destruct (int_inv _ _ _ Oc P2) as (e2 & k2 & b & -> & -> & C2 & I2).
    cbn [parse_fields] in F. apply some_eq in F. subst ws2. cbn [decode_as_list] in H. injection H as <-.
    exact (as_range e e1 e2 c2 k1 k2 a b C C1 C2 I1 I2).
  - destruct (r_tag r =? 2) eqn:E2.
    + unfold read_as, unmarshal in H. destruct (parse_field GInt p0 (r_full r)) as [[v s]|] eqn:P; [|discriminate].
      pose proof P as P'.
      destruct (p0_inv GInt 2 false _ v s eq_refl ltac:(discriminate) ltac:(discriminate) ltac:(lia) Of P')
        as (e & c & h & full & X & C & Lc & D).
      cbn [decode_inner] in D. destruct (parse_int64 c) as [n|] eqn:N; [|discriminate]. cbn [opt_map] in D. injection D as <-.
      destruct (reread _ _ _ _ _ _ _ O R X C ltac:(cbn; lia) Lc) as [-> _]. rewrite app_nil_r in X. rewrite X.
      cbn [decode_as_list] in H. injection H as <-. apply (as_number e c n C). apply int64_coded; [|exact N].
      rewrite X in Of. exact (coded_ok _ _ _ C Of).
    + cbn [decode_as_list] in H. injection H as <-. apply (as_other tg (r_bytes r)); [exact A|apply T2; lia|apply T2; lia].
Qed.

Lemma as_list_split : forall l r, decode_as_list l = (r, true) ->
  exists ls, r = concat ls /\ Forall2 (fun x y => decode_as_list [x] = (y, true)) l ls.
Proof.
  induction l as [|x l IH]; intros r H; [injection H as <-; exists []; split; [reflexivity|constructor]|].
  destruct x as [a b|a| |]; cbn [decode_as_list] in H; try discriminate.
  - destruct (decode_as_list l) as [r' ok]. injection H as <- ->. destruct (IH _ eq_refl) as (ls & -> & F).
    exists ([ASRange a b] :: ls). split; [reflexivity|]. constructor; [reflexivity|exact F].
  - destruct (decode_as_list l) as [r' ok]. injection H as <- ->. destruct (IH _ eq_refl) as (ls & -> & F).
    exists ([ASNum a] :: ls). split; [reflexivity|]. constructor; [reflexivity|exact F].
  - destruct (IH _ H) as (ls & -> & F). exists ([] :: ls). split; [reflexivity|]. constructor; [reflexivity|exact F].
Qed.

Lemma as_choice_inv : forall r l, bytes_ok (r_bytes r) = true -> decode_as_id r = (l, true) -> as_choice (r_bytes r) l.
Proof.
  intros r l O H. unfold decode_as_id in H.
  destruct (read_as GRaw raw_of (r_bytes r)) as [a|] eqn:E; [|discriminate].
  assert (R : exists rest, parse_raw (r_bytes r) = Some (a, rest)).
  { unfold read_as, unmarshal in E. destruct (parse_field GRaw p0 (r_bytes r)) as [[v s]|] eqn:P; [|discriminate].
    destruct (raw_read _ _ _ P) as (x & -> & Q). cbn [raw_of] in E. apply some_eq in E. subst x. now exists s. }
  destruct R as (rest & R). destruct (raw_any _ _ _ O R) as (tg & Ed & A & T1 & T2).
  destruct (r_tag a =? 5) eqn:E5.
  - cbn [decode_as] in H. injection H as <-. rewrite Ed. apply (as_inherit tg (r_bytes a)); [exact A|].
    destruct (T1 5 ltac:(lia) ltac:(lia)); lia.
  - destruct (r_tag a =? 16) eqn:E16.
    + destruct (read_as (GSlice GRaw) (slice_of raw_of) (r_bytes r)) as [rs|] eqn:Es; [|discriminate].
      cbn [decode_as] in H.
      destruct (slice_inv GRaw raw_of (fun e x => exists s, bytes_ok (e ++ s) = true /\ parse_raw (e ++ s) = Some (x, s) /\ e = r_full x))
        with (d := r_bytes r) (vs := rs) as (e & s & es & X & C & Lc & F); [|exact O|exact Es|].
      { intros l' v x s Ol Pl Fx. destruct (raw_read _ _ _ Pl) as (y & -> & Ry). cbn [raw_of] in Fx. apply some_eq in Fx. subst y.
        destruct (raw_any _ _ _ Ol Ry) as (tg' & El & _). exists (r_full x). split; [exact El|]. exists s.
        rewrite <- El. auto. }
      rewrite X. destruct (as_list_split _ _ H) as (ls & -> & F2). apply forall2_map_l in F2.
      apply (as_elements es); [exact C|].
      refine (forall2_imp _ _ _ _ _ (forall2_compose _ _ _ _ _ F F2)).
      intros e' y (x & (s' & Os & Px & ->) & Dx). exact (as_elem_inv _ _ _ _ Os Px Dx).
    + cbn [decode_as] in H. injection H as <-. rewrite Ed. apply (as_neither tg (r_bytes a)); [exact A|apply T2; lia|apply T2; lia].
Qed.

(** An optional value with an implicit tag *)
Lemma opt_raw_inv : forall k l v r, 0 <= k < 31 -> bytes_ok l = true -> parse_field GRaw (p_opt_tag k) l = Some (v, r) ->
  (v = VRaw raw0 /\ r = l) \/
  exists x, v = VRaw x /\ parse_raw l = Some (x, r) /\ r_class x = 2 /\ r_tag x = k.
Proof.
  intros k l v r K O H. rewrite field_raw in H by reflexivity. change (default_value (p_opt_tag k) GRaw) with (Some (VRaw raw0)) in H.
  cbv iota in H. destruct l as [|b l']; [left; apply some_eq in H; split; congruence|]. set (l := b :: l') in *. clearbody l.
  destruct (parse_header l) as [[h s]|] eqn:Eh; [|discriminate].
  destruct (matches (p_opt_tag k) GRaw h) eqn:M; [|left; apply some_eq in H; split; congruence]. right.
  destruct (parse_raw l) as [[x rest]|] eqn:R; [|discriminate]. cbn [decode_inner opt_map] in H. apply some_eq in H.
  destruct (header_raw _ _ _ _ _ Eh R) as (C1 & C2 & C3).
  exists x. assert (rest = r) by congruence. subst rest.
  assert (V : v = VRaw (mkRaw (h_class h) (h_cons h) (h_tag h) (r_bytes x) (r_full x))) by congruence.
  rewrite C1, C2, C3 in V. split; [rewrite V; now destruct x|]. split; [reflexivity|].
  unfold matches in M. cbn [universal p_opt_tag p_tag p_explicit negb andb orb] in M. lia.
Qed.

Lemma as_part_inv : forall k x l, 0 <= k < 31 ->
  (x = raw0 \/ exists d rest, bytes_ok d = true /\ parse_raw d = Some (x, rest) /\ r_class x = 2 /\ r_tag x = k) ->
  (if r_class x =? 0 then ([], true) else decode_as_id x) = (l, true) -> as_part k (r_full x) l.
Proof.
  intros k x l K [->|(d & rest & O & R & C & T)] H.
  - injection H as <-. constructor.
  - rewrite C in H. change (2 =? 0) with false in H. cbv iota in H.
    destruct (raw_any _ _ _ O R) as (tg & Ed & A & T1 & T2).
    destruct (parse_raw_inv _ _ _ O R) as (tg' & lo & Ed' & Ef' & Hl & Hc & Ht & K1 & K2 & K3 & K4).
    assert (Ob : bytes_ok (r_bytes x) = true).
    { rewrite Ed' in O. apply bytes_ok_app in O as [_ O]. apply bytes_ok_app in O as [_ O]. now apply bytes_ok_app in O as [O _]. }
    apply (as_present k tg' (r_bytes x)).
    + exists lo. split; [exact Hl|]. split; [exact Ef'|]. split; [exact Ht|]. intros X. now apply K3.
    + congruence.
    + destruct (Z.eq_dec (hd 0 tg' mod 32) 31) as [X|X]; [apply K4 in X; lia|]. apply K3 in X. lia.
    + now apply as_choice_inv.
Qed.

Theorem as_ext_grammar : forall d nums rdi, bytes_ok d = true -> decode_as_ext d = (nums, rdi, true) -> as_extension d nums rdi.
Proof.
  intros d nums rdi O H. unfold decode_as_ext in H.
  unfold read_as, unmarshal, t_as_ids in H. destruct (parse_field _ p0 d) as [[v rest]|] eqn:E; [|discriminate].
  destruct (struct_inv _ _ _ _ O E) as (e & c & vs & -> & -> & C & Lc & Oc & F).
  apply fields_cons in F. destruct F as (v1 & c1 & ws & P1 & F & ->).
  apply fields_cons in F. destruct F as (v2 & c2 & ws2 & P2 & F & ->). cbn [parse_fields] in F. apply some_eq in F. subst ws2.
  assert (S1 : exists x, v1 = VRaw x /\ c = r_full x ++ c1 /\ bytes_ok c1 = true /\
    (x = raw0 \/ exists d rest, bytes_ok d = true /\ parse_raw d = Some (x, rest) /\ r_class x = 2 /\ r_tag x = 0)).
  { destruct (opt_raw_inv 0 _ _ _ ltac:(lia) Oc P1) as [[-> ->]|(x & -> & R & Cx & Tx)]; [exists raw0; auto|].
    exists x. destruct (raw_any _ _ _ Oc R) as (tg & Ed & _). split; [reflexivity|]. split; [exact Ed|].
    split; [rewrite Ed in Oc; now apply bytes_ok_app in Oc|]. right. exists c, c1. auto. }
  destruct S1 as (x1 & -> & -> & O1 & D1).
  assert (S2 : exists x, v2 = VRaw x /\ c1 = r_full x ++ c2 /\
    (x = raw0 \/ exists d rest, bytes_ok d = true /\ parse_raw d = Some (x, rest) /\ r_class x = 2 /\ r_tag x = 1)).
  { destruct (opt_raw_inv 1 _ _ _ ltac:(lia) O1 P2) as [[-> ->]|(x & -> & R & Cx & Tx)]; [exists raw0; auto|].
    exists x. destruct (raw_any _ _ _ O1 R) as (tg & Ed & _). split; [reflexivity|]. split; [exact Ed|]. right. exists c1, c2. auto. }
  destruct S2 as (x2 & -> & -> & D2).
  destruct (if r_class x1 =? 0 then ([], true) else decode_as_id x1) as [na oka] eqn:Ea. destruct oka; [|discriminate].
  destruct (if r_class x2 =? 0 then ([], true) else decode_as_id x2) as [nb okb] eqn:Eb.
  assert (na = nums) by congruence. assert (nb = rdi) by congruence. assert (okb = true) by congruence. subst na nb okb.
  apply (as_ids e (r_full x1) (r_full x2) c2 rest); [exact C| |].
  - exact (as_part_inv 0 x1 nums ltac:(lia) D1 Ea).
  - exact (as_part_inv 1 x2 rdi ltac:(lia) D2 Eb).
Qed.

(** ** Access locations *)
Lemma tagged_octets_inv : forall l v r, bytes_ok l = true -> parse_field GOctets (p_tagged 6) l = Some (v, r) ->
  exists e c, l = e ++ r /\ v = VOctets c /\ coded 134 c e.
Proof.
  intros l v r O H. destruct (field_inv GOctets (p_tagged 6) l v r eq_refl eq_refl H) as (x & h & s & Eh & R & M & D & C1 & C2 & C3).
  cbn [decode_inner] in D. apply some_eq in D. subst v.
  unfold matches in M. cbn [universal p_tagged p_tag p_explicit negb andb orb] in M.
  destruct (raw_coded _ _ _ O R ltac:(lia)) as (El & C & _). exists (r_full x), (r_bytes x).
  split; [exact El|]. split; [reflexivity|]. replace 134 with (64 * r_class x + 32 * Z.b2z (r_cons x) + r_tag x); [exact C|].
  destruct (h_cons h) eqn:Hc; [cbn in M; lia|]. rewrite <- C2. cbn [Z.b2z]. lia.
Qed.

Theorem access_grammar : forall d l, bytes_ok d = true -> decode_sia d = Some l -> access_octets d l.
Proof.
  intros d l O H. unfold decode_sia in H.
  destruct (slice_inv t_sia sia_of access) with (d := d) (vs := l) as (e & rest & es & -> & C & _ & F); [|exact O|exact H|].
  { intros l' v a r Ol Pl Fv. unfold t_sia in Pl.
    destruct (struct_inv _ _ _ _ Ol Pl) as (e & c & vs & -> & -> & C & Lc & Oc & F).
    exists e. split; [reflexivity|].
    apply fields_cons in F. destruct F as (v1 & c1 & ws & P1 & F & ->).
    destruct (oid_inv _ _ _ Oc P1) as (e1 & k1 & o & -> & -> & C1 & I1). apply bytes_ok_app in Oc as [_ Oc].
    apply fields_cons in F. destruct F as (v2 & c2 & ws2 & P2 & F & ->). cbn [parse_fields] in F. apply some_eq in F. subst ws2.
    destruct (tagged_octets_inv _ _ _ Oc P2) as (e2 & name & -> & -> & C2). cbn [sia_of] in Fv. apply some_eq in Fv. subst a.
    exact (access_one e e1 e2 c2 k1 o name C C1 I1 C2). }
  exact (access_all es e rest l C F).
Qed.

(** ** Manifest contents *)
Lemma time_inv : forall l v r, bytes_ok l = true -> parse_field GTime p_generalized l = Some (v, r) ->
  exists e t, l = e ++ r /\ v = VTime t /\ time_value e t.
Proof.
  intros l v r O H. destruct (field_inv GTime p_generalized l v r eq_refl eq_refl H) as (x & h & s & Eh & R & M & D & C1 & C2 & C3).
  cbn [decode_inner] in D. unfold matches in M. cbn [universal p_generalized p_tag p_explicit negb andb orb] in M.
  unfold wire_tag in M, D. cbn [universal p_generalized p_set] in M, D. cbv beta iota zeta in M, D.
  destruct ((h_class h =? 0) && (h_tag h =? 24)) eqn:G.
  - change (24 =? 23) with false in D. cbv iota in D. destruct (parse_generalized (r_bytes x)) as [t|] eqn:E; [|discriminate].
    apply some_eq in D. subst v. destruct (raw_coded _ _ _ O R ltac:(lia)) as (El & C & _).
    exists (r_full x), t. split; [exact El|]. split; [reflexivity|]. apply (time_generalized (r_bytes x)); [|now apply generalized_exact].
    replace 24 with (64 * r_class x + 32 * Z.b2z (r_cons x) + r_tag x); [exact C|].
    destruct (h_cons h) eqn:Hc; [cbn in M; lia|]. rewrite <- C2. cbn [Z.b2z]. lia.
  - change (23 =? 23) with true in D. cbv iota in D. destruct (parse_utc (r_bytes x)) as [t|] eqn:E; [|discriminate].
    apply some_eq in D. subst v. destruct (raw_coded _ _ _ O R ltac:(lia)) as (El & C & _).
    exists (r_full x), t. split; [exact El|]. split; [reflexivity|]. apply (time_utc (r_bytes x)); [|now apply utc_exact].
    replace 23 with (64 * r_class x + 32 * Z.b2z (r_cons x) + r_tag x); [exact C|].
    destruct (h_cons h) eqn:Hc; [cbn in M; lia|]. rewrite <- C2. cbn [Z.b2z]. lia.
Qed.

Lemma parse_string_plain : forall k c s, parse_string k c = Some s -> k <> 30 -> s = c /\ In k [12; 18; 19; 20; 22; 27].
Proof.
  intros k c s H N. unfold parse_string in H.
  destruct (k =? 19) eqn:E1; [destruct (forallb _ c); [|discriminate]; apply some_eq in H; split; [auto|cbn [In]; lia]|].
  destruct (k =? 18) eqn:E2; [destruct (forallb _ c); [|discriminate]; apply some_eq in H; split; [auto|cbn [In]; lia]|].
  destruct (k =? 22) eqn:E3; [destruct (forallb _ c); [|discriminate]; apply some_eq in H; split; [auto|cbn [In]; lia]|].
  destruct ((k =? 20) || (k =? 27)) eqn:E4; [apply some_eq in H; split; [auto|cbn [In]; lia]|].
  destruct (k =? 12) eqn:E5; [destruct (utf8_ok c); [|discriminate]; apply some_eq in H; split; [auto|cbn [In]; lia]|].
  destruct (k =? 30) eqn:E6; [lia|discriminate].
Qed.

Lemma string_inv : forall l v r, bytes_ok l = true -> parse_field GString p_ia5 l = Some (v, r) ->
  exists e s, l = e ++ r /\ v = VStr s /\ string_value e s.
Proof.
  intros l v r O H. destruct (field_inv GString p_ia5 l v r eq_refl eq_refl H) as (x & h & s & Eh & R & M & D & C1 & C2 & C3).
  cbn [decode_inner] in D. unfold matches in M. cbn [universal p_ia5 p_tag p_explicit negb andb orb] in M.
  assert (Cl : h_class h = 0) by lia. assert (Hc : h_cons h = false) by (destruct (h_cons h); [cbn in M; lia|reflexivity]).
  set (w := wire_tag p_ia5 GString h) in *.
  destruct (parse_string w (r_bytes x)) as [n|] eqn:E; [|discriminate]. apply some_eq in D. subst v.
  assert (Tw : h_tag h = w) by lia.
  assert (Wr : w < 31).
  { destruct (Z.eq_dec w 30); [lia|]. destruct (parse_string_plain _ _ _ E n0) as [_ I]. cbn [In] in I. lia. }
  destruct (raw_coded _ _ _ O R ltac:(lia)) as (El & C & _). exists (r_full x), n. split; [exact El|]. split; [reflexivity|].
  assert (C' : coded w (r_bytes x) (r_full x)).
  { replace w with (64 * r_class x + 32 * Z.b2z (r_cons x) + r_tag x); [exact C|]. rewrite <- C2, Hc. cbn [Z.b2z]. lia. }
  destruct (Z.eq_dec w 30) as [W|W].
  - rewrite W in *. apply (string_bmp (r_bytes x)); [exact C'|]. exact E.
  - destruct (parse_string_plain _ _ _ E W) as [-> I]. exact (string_plain w (r_bytes x) (r_full x) I C').
Qed.

Lemma big_inv : forall l v r, bytes_ok l = true -> parse_field GBig p0 l = Some (v, r) ->
  exists e c n, l = e ++ r /\ v = VBig (Some n) /\ coded 2 c e /\ number_coded c n.
Proof.
  intros l v r O H.
  destruct (p0_inv GBig 2 false l v r eq_refl ltac:(discriminate) ltac:(discriminate) ltac:(lia) O H)
    as (e & c & h & full & -> & C & Lc & D).
  cbn [decode_inner] in D. unfold parse_bigint in D. destruct (check_integer c) eqn:E; [|discriminate]. cbn [opt_map] in D.
  apply some_eq in D. subst v.
  exists e, c, (signed_value c). split; [reflexivity|]. split; [reflexivity|]. split; [exact C|].
  apply checked_coded; [|exact E]. apply bytes_ok_app in O as [O _]. exact (coded_ok _ _ _ C O).
Qed.

Theorem manifest_grammar : forall d m, bytes_ok d = true -> read_as t_mft_content mft_content_of d = Some m ->
  exists n, mc_number m = Some n /\ manifest_octets d n (mc_this m) (mc_next m) (mc_alg m) (mc_files m).
Proof.
  intros d m O H. unfold read_as, unmarshal, t_mft_content in H. destruct (parse_field _ p0 d) as [[v rest]|] eqn:E; [|discriminate].
  destruct (struct_inv _ _ _ _ O E) as (e & c & vs & -> & -> & C & Lc & Oc & F).
  apply fields_cons in F. destruct F as (v0 & c0 & w0 & P0 & F & ->).
  destruct (big_inv _ _ _ Oc P0) as (e0 & k0 & n & -> & -> & C0 & N0). apply bytes_ok_app in Oc as [_ Oc].
  apply fields_cons in F. destruct F as (v1 & c1 & w1 & P1 & F & ->).
  destruct (time_inv _ _ _ Oc P1) as (e1 & t1 & -> & -> & T1). apply bytes_ok_app in Oc as [_ Oc].
  apply fields_cons in F. destruct F as (v2 & c2 & w2 & P2 & F & ->).
  destruct (time_inv _ _ _ Oc P2) as (e2 & t2 & -> & -> & T2). apply bytes_ok_app in Oc as [_ Oc].
  apply fields_cons in F. destruct F as (v3 & c3 & w3 & P3 & F & ->).
  destruct (oid_inv _ _ _ Oc P3) as (e3 & k3 & alg & -> & -> & C3 & N3). apply bytes_ok_app in Oc as [_ Oc].
  apply fields_cons in F. destruct F as (v4 & c4 & w4 & P4 & F & ->). cbn [parse_fields] in F. apply some_eq in F. subst w4.
  cbn [mft_content_of] in H. destruct (slice_of file_of v4) as [fs|] eqn:S; [|discriminate]. cbn [opt_map] in H.
  apply some_eq in H. subst m. cbn [mc_number mc_this mc_next mc_alg mc_files].
  destruct (slice_of_inv t_file file_of file_hash) with (d := c3) (v := v4) (vs := fs) (rest := c4)
    as (e4 & es & -> & C4 & Fb); [|exact Oc|exact P4|exact S|].
  { clear. intros l v a r Ol Pl Fv. unfold t_file in Pl.
    destruct (struct_inv _ _ _ _ Ol Pl) as (e & c & vs & -> & -> & C & Lc & Oc & F). exists e. split; [reflexivity|].
    apply fields_cons in F. destruct F as (v1 & c1 & ws & P1 & F & ->).
    destruct (string_inv _ _ _ Oc P1) as (e1 & name & -> & -> & S1). apply bytes_ok_app in Oc as [_ Oc].
    apply fields_cons in F. destruct F as (v2 & c2 & ws2 & P2 & F & ->). cbn [parse_fields] in F. apply some_eq in F. subst ws2.
    destruct (bits_inv p0 _ _ _ ltac:(repeat split) eq_refl Oc P2) as (e2 & k2 & b & -> & -> & C2 & _ & B).
    cbn [file_of] in Fv. apply some_eq in Fv. subst a. exact (file_one e e1 e2 c2 k2 name b C S1 C2 B). }
  exists n. split; [reflexivity|].
  exact (manifest_whole e e0 e1 e2 e3 e4 c4 rest k0 k3 es n t1 t2 alg fs C C0 N0 T1 T2 C3 N3 C4 Fb).
Qed.

(** ** The conversion to DER gives octets *)
Lemma ok_app : forall a b, bytes_ok a = true -> bytes_ok b = true -> bytes_ok (a ++ b) = true.
Proof. intros a b A B. unfold bytes_ok. rewrite forallb_app. apply andb_true_iff. split; [exact A|exact B]. Qed.
Lemma low_octet : forall x, (0 <=? Z.land x 255) && (Z.land x 255 <? 256) = true.
Proof. intros x. change 255 with (Z.ones 8). rewrite Z.land_ones by lia. change (2 ^ 8) with 256. lia. Qed.
Lemma marshal_long_ok : forall n i, bytes_ok (marshal_long n i) = true.
Proof.
  induction n as [|n IH]; intros i; [reflexivity|]. cbn [marshal_long]. unfold bytes_ok. cbn [forallb].
  rewrite andb_true_iff. split; [apply low_octet|apply IH].
Qed.
Lemma length_length_small : forall f i, (1 <= length_length f i <= S f)%nat.
Proof.
  induction f as [|f IH]; intros i; cbn [length_length]; [lia|]. destruct (255 <? i); [|lia]. specialize (IH (Z.shiftr i 8)). lia.
Qed.
Lemma encode_length_ok : forall n, bytes_ok (encode_length n) = true.
Proof.
  intros n. unfold encode_length. destruct (128 <=? n).
  - set (k := length_length 8 n). assert (K : (1 <= k <= 9)%nat) by apply (length_length_small 8 n). clearbody k.
    unfold bytes_ok. cbn [forallb]. rewrite andb_true_iff. split; [|apply marshal_long_ok].
    do 10 (destruct k as [|k]; [try lia; reflexivity|]). lia.
  - unfold bytes_ok. cbn [forallb]. rewrite andb_true_iff. split; [apply low_octet|reflexivity].
Qed.
Lemma tag_octets_ok : forall b tg, tag_octets b tg -> bytes_ok tg = true.
Proof.
  intros b tg [x B _ _|x mid last B _ _ F L]; unfold bytes_ok; cbn [forallb]; rewrite andb_true_iff; unfold byte_ok; (split; [lia|]); [reflexivity|].
  apply ok_app; [|cbn; unfold byte_ok; lia].
  induction F as [|y mid Y F IH]; [reflexivity|]. unfold bytes_ok. cbn [forallb]. rewrite andb_true_iff. split; [unfold byte_ok; lia|exact IH].
Qed.
Lemma encode_obj_ok : forall o, wf_obj o -> bytes_ok (encode_obj o) = true.
Proof.
  induction o as [tag c|tag ts IH] using aobj_ind2; intros W; inversion W; subst.
  - cbn [encode_obj]. apply ok_app; [now apply (tag_octets_ok false)|]. apply ok_app; [apply encode_length_ok|assumption].
  - rewrite encode_struct. apply ok_app; [now apply (tag_octets_ok true)|]. apply ok_app; [apply encode_length_ok|].
    clear W. match goal with H : Forall wf_obj ts |- _ => revert H end. induction IH as [|t ts Ht Hs IHs]; intros F; [reflexivity|].
    cbn [flat_map]. inversion F; subst. apply ok_app; [now apply Ht|now apply IHs].
Qed.
Lemma ber2der_ok : forall d out, bytes_ok d = true -> ber2der d = BOk out -> bytes_ok out = true.
Proof.
  intros d out O H. unfold ber2der in H. destruct d as [|x r]; [discriminate|]. set (b := x :: r) in *.
  destruct (read_object (2 * length b + 2) b 0) as [[o off]| | |] eqn:R; cbn [bbind fst] in H; try discriminate.
  injection H as <-. destruct (read_wf (2 * length b + 2) b O) as [W _]. apply W in R. now apply encode_obj_ok.
Qed.
