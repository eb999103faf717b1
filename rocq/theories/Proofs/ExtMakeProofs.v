(** Extensions for certificates to be made. *)
From Coq Require Import Lia ZifyBool ZifyNat Bool.
From Verif.Model Require Import Base Str NetIP CertRes Ber Asn1 GoTime Der Tal Cms Validator ObjDer TalText TalDer X509 ExtMake.
From Verif.Spec Require Import Addr Resources Bits Canon BerSpec IpExtSpec ContentSpec SignedSpec ObjSpec TalSpec JsonSpec ExtMakeSpec.
From Verif.Proofs Require Import NetIPProofs BerProofs Asn1Proofs DerPrim DerProofs DerBytes ObjBytes ContentProofs SignedProofs SignedThm ObjEncode ObjTop TalDerProofs CrlMakeThm X509Proofs.
Ltac Zify.zify_post_hook ::= Z.div_mod_to_equations.

(** ** UTF-8 *)
Lemma unicode_valid : forall s, unicode s -> forall f, (length s <= f)%nat -> utf8_valid f s = true.
Proof.
  induction 1 as [|c s S U IH]; intros f L; [destruct f; reflexivity|].
  unfold scalar in S. unfold utf8 in *.
  destruct (Z.ltb_spec c 128); [|destruct (Z.ltb_spec c 2048); [|destruct (Z.ltb_spec c 65536)]];
    cbn [app length] in L |- *; (destruct f as [|f]; [lia|]); cbn [utf8_valid].
  - replace (c <? 128) with true by lia. apply IH. lia.
  - replace (192 + c / 64 <? 128) with false by lia.
    replace (in_range 194 223 (192 + c / 64)) with true by (unfold in_range; lia).
    replace (in_range 128 191 (128 + c mod 64)) with true by (unfold in_range; lia).
    apply IH. lia.
  - replace (224 + c / 4096 <? 128) with false by lia.
    replace (in_range 194 223 (224 + c / 4096)) with false by (unfold in_range; lia).
    replace (in_range 224 239 (224 + c / 4096)) with true by (unfold in_range; lia).
    replace (in_range 128 191 (128 + c mod 64)) with true by (unfold in_range; lia).
    replace (in_range _ _ (128 + c / 64 mod 64)) with true.
    + apply IH. lia.
    + unfold in_range. destruct (Z.eqb_spec (224 + c / 4096) 224), (Z.eqb_spec (224 + c / 4096) 237); lia.
  - replace (240 + c / 262144 <? 128) with false by lia.
    replace (in_range 194 223 (240 + c / 262144)) with false by (unfold in_range; lia).
    replace (in_range 224 239 (240 + c / 262144)) with false by (unfold in_range; lia).
    replace (in_range 240 244 (240 + c / 262144)) with true by (unfold in_range; lia).
    replace (in_range 128 191 (128 + c mod 64)) with true by (unfold in_range; lia).
    replace (in_range 128 191 (128 + c / 64 mod 64)) with true by (unfold in_range; lia).
    replace (in_range _ _ (128 + c / 4096 mod 64)) with true.
    + apply IH. lia.
    + assert (Q : c / 262144 = c / 4096 / 64) by (rewrite Z.div_div by lia; reflexivity). rewrite Q.
      assert (B : 16 <= c / 4096 < 272) by lia. clear - B. generalize dependent (c / 4096). intros q B. unfold in_range.
      destruct (Z.eqb_spec (240 + q / 64) 240), (Z.eqb_spec (240 + q / 64) 244); lia.
Qed.

Lemma valid_unicode : forall f s, bytes_ok s = true -> utf8_valid f s = true -> unicode s.
Proof.
  induction f as [|f IH]; intros s O H; destruct s as [|b r]; cbn [utf8_valid] in H; try constructor; try discriminate.
  apply andb_prop in O. destruct O as [Ob Or]. unfold byte_ok in Ob.
  destruct (Z.ltb_spec b 128).
  { assert (E : b :: r = utf8 b ++ r) by (unfold utf8; replace (b <? 128) with true by lia; reflexivity). rewrite E.
    constructor; [unfold scalar; lia|now apply IH]. }
  destruct r as [|c r]; [discriminate|]. apply andb_prop in Or. destruct Or as [Oc Or]. unfold byte_ok in Oc.
  destruct (in_range 194 223 b) eqn:R1.
  { apply andb_prop in H. destruct H as [Hc H]. unfold in_range in *.
    assert (E : b :: c :: r = utf8 ((b - 192) * 64 + (c - 128)) ++ r).
    { unfold utf8. replace (_ <? 128) with false by lia. replace (_ <? 2048) with true by lia. cbn [app]. repeat f_equal; lia. }
    rewrite E. constructor; [unfold scalar; lia|now apply IH]. }
  destruct r as [|d r]; [discriminate|]. apply andb_prop in Or. destruct Or as [Od Or]. unfold byte_ok in Od.
  destruct (in_range 224 239 b) eqn:R2.
  { apply andb_prop in H. destruct H as [Hc H]. apply andb_prop in Hc. destruct Hc as [Hc Hd]. unfold in_range in *.
    assert (A : b <> 224 -> 128 <= c) by (intros; destruct (b =? 224) eqn:?; lia).
    assert (B : b = 224 -> 160 <= c) by (intros; destruct (b =? 224) eqn:?; lia).
    assert (C : b = 237 -> c <= 159) by (intros; destruct (b =? 237) eqn:?; lia).
    assert (D : c <= 191) by (destruct (b =? 237); lia).
    assert (E : b :: c :: d :: r = utf8 ((b - 224) * 4096 + (c - 128) * 64 + (d - 128)) ++ r).
    { unfold utf8. replace (_ <? 128) with false by lia. replace (_ <? 2048) with false by lia.
      replace (_ <? 65536) with true by lia. cbn [app]. repeat f_equal; lia. }
    rewrite E. constructor; [unfold scalar; lia|now apply IH]. }
  destruct r as [|e r]; [discriminate|]. apply andb_prop in Or. destruct Or as [Oe Or]. unfold byte_ok in Oe.
  repeat match type of H with (_ && _)%bool = true => apply andb_prop in H; destruct H as [H ?] end.
  unfold in_range in *.
  assert (A : b <> 240 -> 128 <= c) by (intros; destruct (b =? 240) eqn:?; lia).
  assert (B : b = 240 -> 144 <= c) by (intros; destruct (b =? 240) eqn:?; lia).
  assert (C : b = 244 -> c <= 143) by (intros; destruct (b =? 244) eqn:?; lia).
  assert (D : c <= 191) by (destruct (b =? 244); lia).
  assert (E : b :: c :: d :: e :: r = utf8 ((b - 240) * 262144 + (c - 128) * 4096 + (d - 128) * 64 + (e - 128)) ++ r).
  { unfold utf8. replace (_ <? 128) with false by lia. replace (_ <? 2048) with false by lia.
    replace (_ <? 65536) with false by lia. cbn [app]. repeat f_equal; lia. }
  rewrite E. constructor; [unfold scalar; lia|now apply IH].
Qed.

Lemma utf8_ok_unicode : forall s, bytes_ok s = true -> (utf8_ok s = true <-> unicode s).
Proof.
  intros s O. unfold utf8_ok. split; [now apply valid_unicode|]. intros U. now apply unicode_valid.
Qed.

(** ** Access information *)
Lemma printable_ascii : forall b, is_printable false false b = true -> 0 <= b < 128.
Proof. intros b H. unfold is_printable in H. lia. Qed.
Lemma printable_unicode : forall s, forallb (is_printable false false) s = true -> unicode s.
Proof.
  induction s as [|b s IH]; intros H; [constructor|]. cbn [forallb] in H. apply andb_prop in H. destruct H as [A B].
  apply printable_ascii in A. assert (E : b :: s = utf8 b ++ s) by (unfold utf8; replace (b <? 128) with true by lia; reflexivity).
  rewrite E. constructor; [unfold scalar; lia|auto].
Qed.

Lemma string_tag_some : forall s, bytes_ok s = true -> ((exists k, string_tag (p_tagged 6) s = Some k) <-> unicode s).
Proof.
  intros s O. unfold string_tag. change (p_str (p_tagged 6) =? 0) with true. cbv iota.
  destruct (forallb (is_printable false false) s) eqn:P.
  - split; [intros _; now apply printable_unicode|eauto].
  - rewrite <- (utf8_ok_unicode s O). destruct (utf8_ok s); split; [auto|eauto|intros [k ?]; discriminate|discriminate].
Qed.

Definition access_octets (method : list Z) (path : bytes) : bytes :=
  put_tlv 0 true 16 (put_tlv 0 true 16 (put_tlv 0 false 6 (odefault [] (put_oid method)) ++ put_tlv 2 false 6 path) ++ []).

Lemma marshal_access : forall o c path, put_oid o = Some c ->
  marshal (GSlice t_access) (VSlice [VStruct [] [VOid o; VStr path]]) =
  match string_tag (p_tagged 6) path with
  | Some _ => Some (access_octets o path)
  | None => None
  end.
Proof.
  intros o c path P. unfold marshal. rewrite make_field_eq, left_out_p0. cbn [make_tag universal make_body p0 p_set map].
  rewrite (make_field_eq t_access), left_out_p0. unfold t_access. cbn [make_tag universal make_body p0 p_set make_fields].
  rewrite (make_field_eq GOid), left_out_p0. cbn [make_tag universal make_body p0 p_set]. rewrite P.
  rewrite (make_field_eq GString). change (left_out (p_tagged 6) (VStr path)) with false. cbv iota.
  cbn [make_tag make_body].
  destruct (string_tag (p_tagged 6) path); [|reflexivity].
  unfold put_string. cbn [p_str p_tagged Z.eqb]. unfold access_octets. rewrite P. cbn [odefault].
  unfold wrap, is_cons. cbn [p0 p_tag p_tagged p_explicit universal all_some opt_map concat]. rewrite (app_nil_r (put_tlv 2 false 6 path)). reflexivity.
Qed.

Lemma tlv_coded : forall c (k : bool) u b, 0 <= u < 31 -> Z.of_nat (length b) < 2 ^ 40 ->
  coded (c * 64 + (if k then 32 else 0) + u) b (put_tlv c k u b).
Proof. intros c k u b U L. rewrite put_tlv_low by exact U. apply coded_make. lia. Qed.

Lemma known_oid : forall o c, put_oid o = Some c -> oid_fits o -> oid_coded c o.
Proof.
  intros o c P F. destruct (oid_back o F) as (b & P' & V). rewrite P in P'. apply some_eq in P'. subst b.
  exact (oid_value_coded c o (put_oid_bytes _ _ P) V).
Qed.

Lemma access_octets_grammar : forall o c path, put_oid o = Some c -> oid_fits o -> (length c <= 100)%nat ->
  Z.of_nat (length path) < 2 ^ 31 -> access_value o path (access_octets o path) /\
  (length (access_octets o path) <= length path + 140)%nat.
Proof.
  intros o c path P F L LP. unfold access_octets. rewrite P. cbn [odefault]. rewrite app_nil_r.
  pose proof (tlv_size 0 false 6 c ltac:(lia) ltac:(lia)) as S1.
  pose proof (tlv_size 2 false 6 path ltac:(lia) ltac:(lia)) as S2.
  set (x := put_tlv 0 false 6 c) in *. set (y := put_tlv 2 false 6 path) in *.
  assert (S3 : (length (x ++ y) <= length path + 120)%nat) by (rewrite app_length; lia).
  pose proof (tlv_size 0 true 16 (x ++ y) ltac:(lia) ltac:(lia)) as S4.
  pose proof (tlv_size 0 true 16 (put_tlv 0 true 16 (x ++ y)) ltac:(lia) ltac:(lia)) as S5.
  split; [|lia]. exists c, x, y, (put_tlv 0 true 16 (x ++ y)). split; [now apply known_oid|].
  split; [exact (tlv_coded 0 false 6 c ltac:(lia) ltac:(lia))|].
  split; [exact (tlv_coded 2 false 6 path ltac:(lia) ltac:(lia))|].
  split; [exact (tlv_coded 0 true 16 (x ++ y) ltac:(lia) ltac:(lia))|].
  exact (tlv_coded 0 true 16 (put_tlv 0 true 16 (x ++ y)) ltac:(lia) ltac:(lia)).
Qed.

Definition access_id (authority : bool) := if authority then oid_authority_access else oid_subject_access.
Definition access_method (authority : bool) := if authority then oid_ca_issuer else oid_signed_object.

Lemma method_oid : forall a, exists c, put_oid (access_method a) = Some c /\ (length c <= 100)%nat /\ oid_fits (access_method a).
Proof.
  intros a. destruct a; eexists; (split; [vm_compute; reflexivity|]); (split; [cbn; lia|]); (split; [lia|reflexivity]).
Qed.

Theorem access_written : forall a path, unicode path -> bytes_ok path = true -> Z.of_nat (length path) < 2 ^ 31 ->
  exists d, info_access_ext a path = Some (mkExt (access_id a) false d) /\ access_value (access_method a) path d.
Proof.
  intros a path U O L. destruct (method_oid a) as (c & P & LC & F). exists (access_octets (access_method a) path).
  split; [|exact (proj1 (access_octets_grammar _ c path P F LC L))].
  unfold info_access_ext. fold (access_id a) (access_method a). rewrite (marshal_access _ c path P).
  destruct (proj2 (string_tag_some path O) U) as (k & ->). reflexivity.
Qed.

Theorem access_refused : forall a path, bytes_ok path = true -> ~ unicode path -> info_access_ext a path = None.
Proof.
  intros a path O N. destruct (method_oid a) as (c & P & LC & F).
  unfold info_access_ext. fold (access_id a) (access_method a). rewrite (marshal_access _ c path P).
  destruct (string_tag (p_tagged 6) path) eqn:E; [|reflexivity]. destruct N. apply (string_tag_some path O). eauto.
Qed.

Lemma sia_one : forall o c path, put_oid o = Some c -> encode_sia [(o, path)] = Some (access_octets o path).
Proof.
  intros o c path P. unfold encode_sia. cbn [map_opt]. unfold v_sia. cbn [fst snd].
  unfold marshal, t_sia. rewrite make_field_eq, left_out_p0. cbn [make_tag universal make_body p0 p_set make_fields].
  rewrite (make_field_eq GOid), left_out_p0. cbn [make_tag universal make_body p0 p_set]. rewrite P.
  rewrite (make_field_eq GOctets). change (left_out (p_tagged 6) (VOctets path)) with false. cbv iota.
  cbn [make_tag make_body universal p_tagged p_set].
  unfold wrap, is_cons. cbn [p0 p_tag p_tagged p_explicit universal opt_map bindopt].
  rewrite marshal_raws_eq.
  - unfold access_octets. rewrite P. cbn [odefault concat]. rewrite (app_nil_r (put_tlv 2 false 6 path)). reflexivity.
  - constructor; [|constructor]. rewrite put_tlv_low by lia. discriminate.
Qed.

Theorem access_is_sia : forall path d, bytes_ok path = true ->
  info_access_ext false path = Some d -> sia_ext [([1; 3; 6; 1; 5; 5; 7; 48; 11], path)] = Some d.
Proof.
  intros path d O H. destruct (method_oid false) as (c & P & LC & F).
  unfold info_access_ext in H. fold (access_id false) (access_method false) in H. rewrite (marshal_access _ c path P) in H.
  destruct (string_tag (p_tagged 6) path); [|discriminate]. cbn [opt_map] in H. apply some_eq in H. subst d.
  unfold sia_ext. change [1; 3; 6; 1; 5; 5; 7; 48; 11] with (access_method false). rewrite (sia_one _ c path P). reflexivity.
Qed.

Theorem access_read : forall a path x, bytes_ok path = true -> Z.of_nat (length path) < 2 ^ 30 ->
  info_access_ext a path = Some x -> forall rest, decode_sia (e_value x ++ rest) = Some [(access_method a, path)].
Proof.
  intros a path x O L H rest. destruct (method_oid a) as (c & P & LC & F).
  unfold info_access_ext in H. fold (access_id a) (access_method a) in H. rewrite (marshal_access _ c path P) in H.
  destruct (string_tag (p_tagged 6) path); [|discriminate]. cbn [opt_map] in H. apply some_eq in H. subst x. cbn [e_value].
  destruct (sia_octets [(access_method a, path)]) as (b & E & D).
  - constructor; [exact F|constructor].
  - rewrite (sia_one _ c path P) in E. apply some_eq in E. subst b. apply D.
    destruct (access_octets_grammar _ c path P F LC ltac:(lia)) as [_ S]. lia.
Qed.

(** ** Policies *)
Definition cps_octets : bytes := [43; 6; 1; 5; 5; 7; 2; 1].
Definition resource_octets : bytes := [43; 6; 1; 5; 5; 7; 14; 2].

Lemma marshal_policy : forall cps, cps <> [] ->
  marshal (GSlice t_policy) (VSlice [VStruct [] [VOid oid_resource_policy; VSlice [VStruct [] [VOid oid_cps; VStr cps]]]]) =
  if forallb (fun b => b <? 128) cps then
    Some (put_tlv 0 true 16 (put_tlv 0 true 16 (put_tlv 0 false 6 resource_octets ++
      put_tlv 0 true 16 (put_tlv 0 true 16 (put_tlv 0 false 6 cps_octets ++ put_tlv 0 false 22 cps)))))
  else None.
Proof.
  intros cps N. unfold marshal. rewrite make_field_eq, left_out_p0. cbn [make_tag universal make_body p0 p_set map].
  rewrite (make_field_eq t_policy), left_out_p0. unfold t_policy. cbn [make_tag universal make_body p0 p_set make_fields].
  rewrite (make_field_eq GOid), left_out_p0. cbn [make_tag universal make_body p0 p_set].
  change (put_oid oid_resource_policy) with (Some resource_octets).
  rewrite (make_field_eq (GSlice t_qualifier)), left_out_p0. cbn [make_tag universal make_body p0 p_set map].
  rewrite (make_field_eq t_qualifier), left_out_p0. unfold t_qualifier. cbn [make_tag universal make_body p0 p_set make_fields].
  rewrite (make_field_eq GOid), left_out_p0. cbn [make_tag universal make_body p0 p_set].
  change (put_oid oid_cps) with (Some cps_octets).
  rewrite (make_field_eq GString). change (left_out p_ia5 (VStr cps)) with false. cbv iota.
  cbn [make_tag make_body]. unfold string_tag, put_string. change (p_str p_ia5 =? 22) with true. change (p_str p_ia5 =? 0) with false.
  change (p_str p_ia5) with 22. cbv iota.
  destruct (forallb (fun b => b <? 128) cps); [|reflexivity].
  unfold wrap, is_cons. cbn [p0 p_tag p_ia5 p_explicit universal all_some opt_map concat].
  rewrite ?app_nil_r. cbn [all_some opt_map concat]. rewrite ?app_nil_r. reflexivity.
Qed.

Theorem policy_written : forall cps, cps <> [] -> ascii_text cps -> Z.of_nat (length cps) < 2 ^ 31 ->
  exists d, policy_ext cps = Some (mkExt [2; 5; 29; 32] true d) /\ policy_value [1; 3; 6; 1; 5; 5; 7; 14; 2] (Some cps) d.
Proof.
  intros cps N A L. unfold policy_ext. destruct cps as [|b0 s0] eqn:E0; [congruence|]. rewrite <- E0 in *. clear E0 b0 s0.
  rewrite (marshal_policy cps N).
  assert (F : forallb (fun b => b <? 128) cps = true).
  { apply forallb_forall. intros b I. unfold ascii_text in A. rewrite Forall_forall in A. specialize (A b I). lia. }
  rewrite F. cbn [opt_map]. eexists. split; [reflexivity|].
  pose proof (tlv_size 0 false 6 cps_octets ltac:(lia) ltac:(cbn; lia)) as S1.
  pose proof (tlv_size 0 false 6 resource_octets ltac:(lia) ltac:(cbn; lia)) as S1'.
  pose proof (tlv_size 0 false 22 cps ltac:(lia) ltac:(lia)) as S2.
  pose proof (tlv_coded 0 false 6 cps_octets ltac:(lia) ltac:(cbn; lia)) as C1.
  pose proof (tlv_coded 0 false 6 resource_octets ltac:(lia) ltac:(cbn; lia)) as C1'.
  pose proof (tlv_coded 0 false 22 cps ltac:(lia) ltac:(lia)) as C2.
  change (length cps_octets) with 8%nat in S1. change (length resource_octets) with 8%nat in S1'.
  set (x := put_tlv 0 false 6 cps_octets) in *. set (y := put_tlv 0 false 22 cps) in *.
  set (r := put_tlv 0 false 6 resource_octets) in *.
  assert (S3 : (length (x ++ y) <= length cps + 40)%nat) by (rewrite app_length; lia).
  pose proof (tlv_size 0 true 16 (x ++ y) ltac:(lia) ltac:(lia)) as S4.
  pose proof (tlv_coded 0 true 16 (x ++ y) ltac:(lia) ltac:(lia)) as C4.
  set (q := put_tlv 0 true 16 (x ++ y)) in *.
  pose proof (tlv_size 0 true 16 q ltac:(lia) ltac:(lia)) as S5.
  pose proof (tlv_coded 0 true 16 q ltac:(lia) ltac:(lia)) as C5.
  set (qs := put_tlv 0 true 16 q) in *.
  assert (S6 : (length (r ++ qs) <= length cps + 100)%nat) by (rewrite app_length; lia).
  pose proof (tlv_size 0 true 16 (r ++ qs) ltac:(lia) ltac:(lia)) as S7.
  pose proof (tlv_coded 0 true 16 (r ++ qs) ltac:(lia) ltac:(lia)) as C7.
  set (p := put_tlv 0 true 16 (r ++ qs)) in *.
  pose proof (tlv_coded 0 true 16 p ltac:(lia) ltac:(lia)) as C8.
  exists resource_octets, r, qs, p.
  split; [apply known_oid; [reflexivity|split; [lia|reflexivity]]|]. split; [exact C1'|]. split; [|split; [exact C7|exact C8]].
  apply (q_cps cps cps_octets x y q qs); auto.
  apply known_oid; [reflexivity|split; [lia|reflexivity]].
Qed.

Theorem policy_refused : forall cps, bytes_ok cps = true -> ~ ascii_text cps -> policy_ext cps = None.
Proof.
  intros cps O N. unfold policy_ext. destruct cps as [|b0 s0] eqn:E0; [destruct N; constructor|]. rewrite <- E0 in *.
  rewrite (marshal_policy cps) by (rewrite E0; discriminate). clear E0 b0 s0.
  destruct (forallb (fun b => b <? 128) cps) eqn:F; [|reflexivity]. destruct N. apply Forall_forall. intros b I.
  rewrite forallb_forall in F. unfold bytes_ok in O. rewrite forallb_forall in O. specialize (F b I). specialize (O b I).
  unfold byte_ok in O. lia.
Qed.

(** ** Identifiers of keys *)
Theorem key_id : forall sha1 n e k, k = RSAPtr n e \/ k = RSAVal n e -> usable n e ->
  exists b, key_info [1; 2; 840; 113549; 1; 1; 1] (spki_octets n e) b /\ rsa_key (bs_bytes b) n e /\
    hash_public_key sha1 k = Some (sha1 (bs_bytes b)).
Proof.
  intros sha1 n e k K U. pose proof (usable_key n e U) as L. pose proof (usable_ints n e U) as [L1 L2].
  exists (mkBits (key_octets n e) (8 * Z.of_nat (length (key_octets n e)))). cbn [bs_bytes]. split; [|split].
  - rewrite spki_octets_is, app_nil_r.
    pose proof (tlv_size 0 false 3 (0 :: key_octets n e) ltac:(lia) ltac:(cbn [length]; lia)) as S1.
    cbn [length] in S1.
    pose proof (tlv_coded 0 false 3 (0 :: key_octets n e) ltac:(lia) ltac:(cbn [length]; lia)) as C3.
    set (e3 := put_tlv 0 false 3 (0 :: key_octets n e)) in *.
    pose proof (tlv_coded 0 true 16 (alg_tlv ++ e3)  ltac:(lia) ltac:(rewrite app_length; change (length alg_tlv) with 15%nat; lia)) as C0.
    rewrite <- (app_nil_r (put_tlv 0 true 16 (alg_tlv ++ e3))).
    apply (info_one _ _ alg_tlv [6; 9; 42; 134; 72; 134; 247; 13; 1; 1; 1] e3 [] [5; 0] [] [42; 134; 72; 134; 247; 13; 1; 1; 1] (0 :: key_octets n e)).
    + rewrite app_nil_r. exact C0.
    + exists [13]. split; [|reflexivity]. apply (encode_length_der 13). lia.
    + exists [9]. split; [|reflexivity]. apply (encode_length_der 9). lia.
    + apply known_oid; [reflexivity|split; [lia|reflexivity]].
    + exact C3.
    + exists 0. cbn [bs_bytes bs_len]. split; [reflexivity|]. split; [lia|]. split; [lia|].
      split; [apply key_octets_ok|]. cbn [bs_bytes bs_len]. split; [lia|]. split; [lia|].
      rewrite Z.sub_diag. apply Z.mod_1_r.
  - rewrite key_octets_is, app_nil_r.
    pose proof (tlv_size 0 false 2 (put_int n) ltac:(lia) ltac:(lia)) as S1.
    pose proof (tlv_size 0 false 2 (put_int e) ltac:(lia) ltac:(lia)) as S2.
    fold (int_tlv n) in S1. fold (int_tlv e) in S2.
    rewrite <- (app_nil_r (put_tlv 0 true 16 (int_tlv n ++ int_tlv e))).
    apply (rsa_one _ (int_tlv n) (int_tlv e) [] [] (put_int n) (put_int e)).
    + rewrite app_nil_r. apply (tlv_coded 0 true 16); [lia|rewrite app_length; lia].
    + apply (tlv_coded 0 false 2); lia.
    + apply number_octets.
    + apply (tlv_coded 0 false 2); lia.
    + split; [apply number_octets|lia].
  - destruct K as [-> | ->]; reflexivity.
Qed.

Theorem key_id_injective : forall sha1 n e n' e' k k', k = RSAPtr n e \/ k = RSAVal n e -> k' = RSAPtr n' e' \/ k' = RSAVal n' e' ->
  usable n e -> usable n' e' -> hash_public_key sha1 k = hash_public_key sha1 k' ->
  (n = n' /\ e = e') \/ exists a b, a <> b /\ sha1 a = sha1 b.
Proof.
  intros sha1 n e n' e' k k' K K' U U' H.
  assert (H1 : hash_public_key sha1 k = Some (sha1 (key_octets n e))) by (destruct K as [-> | ->]; reflexivity).
  assert (H2 : hash_public_key sha1 k' = Some (sha1 (key_octets n' e'))) by (destruct K' as [-> | ->]; reflexivity).
  rewrite H1, H2 in H. apply some_eq in H.
  destruct (list_eq_dec Z.eq_dec (key_octets n e) (key_octets n' e')) as [E|E]; [|right; eauto].
  left. pose proof (read_key_octets n e [] U) as R. pose proof (read_key_octets n' e' [] U') as R'.
  rewrite E, R' in R. injection R as -> ->. auto.
Qed.

(** ** All together in a certificate *)
Section Certificate.
Variables (ipd asd siad : bytes) (ips : list ipinfo) (nums rdi : list asinfo) (sias : list (list Z * bytes)).
Hypothesis Hip : decode_ip_ext ipd = (ips, true).
Hypothesis Has : decode_as_ext asd = (nums, rdi, true).
Hypothesis Hsia : decode_sia siad = Some sias.

Definition has_id (o : list Z) (l : list (list Z * bytes)) : bool := existsb (fun x => oid_eqb (fst x) o) l.
Lemma extensions_read : forall l c,
  (forall d, In (oid_ip_blocks, d) l -> d = ipd) -> (forall d, In (oid_as_ids, d) l -> d = asd) ->
  (forall d, In (oid_subject_access, d) l -> d = siad) ->
  exists c', decode_extensions l c = Some c' /\
    c_ips c' = (if has_id oid_ip_blocks l then ips else c_ips c) /\
    c_asns c' = (if has_id oid_as_ids l then nums else c_asns c) /\
    c_sia c' = (if has_id oid_subject_access l then map (fun x => (method_of (fst x), snd x)) sias else c_sia c) /\
    c_ski c' = c_ski c /\ c_aki c' = c_aki c /\ c_key c' = c_key c /\ c_serial c' = c_serial c.
Proof.
  induction l as [|[o d] l IH]; intros c H1 H2 H3; cbn [decode_extensions].
  { exists c. cbn. repeat split; reflexivity. }
  specialize (fun c => IH c (fun d I => H1 d (or_intror I)) (fun d I => H2 d (or_intror I)) (fun d I => H3 d (or_intror I))).
  fold oid_ip_blocks oid_as_ids oid_subject_access.
  unfold has_id. cbn [existsb fst].
  destruct (oid_eqb_spec o oid_ip_blocks) as [->|N1].
  { rewrite (H1 d (or_introl eq_refl)), Hip. destruct (IH (set_ips c ips)) as (c' & E & A & B & C & D).
    exists c'. split; [exact E|]. change (oid_eqb oid_ip_blocks oid_as_ids) with false.
    change (oid_eqb oid_ip_blocks oid_subject_access) with false. cbn [orb].
    fold (has_id oid_ip_blocks l) (has_id oid_as_ids l) (has_id oid_subject_access l).
    split; [|now split]. rewrite A. destruct (has_id oid_ip_blocks l); reflexivity. }
  destruct (oid_eqb_spec o oid_as_ids) as [->|N2].
  { rewrite (H2 d (or_introl eq_refl)), Has. destruct (IH (set_asns c nums)) as (c' & E & A & B & C & D).
    exists c'. split; [exact E|]. change (oid_eqb oid_as_ids oid_subject_access) with false. cbn [orb].
    fold (has_id oid_ip_blocks l) (has_id oid_as_ids l) (has_id oid_subject_access l).
    split; [exact A|]. split; [|now split]. rewrite B. destruct (has_id oid_as_ids l); reflexivity. }
  destruct (oid_eqb_spec o oid_subject_access) as [->|N3].
  { rewrite (H3 d (or_introl eq_refl)), Hsia.
    destruct (IH (set_sia c (map (fun x => (method_of (fst x), snd x)) sias))) as (c' & E & A & B & C & D).
    exists c'. split; [exact E|]. cbn [orb].
    fold (has_id oid_ip_blocks l) (has_id oid_as_ids l) (has_id oid_subject_access l).
    split; [exact A|]. split; [exact B|]. split; [|exact D]. rewrite C. destruct (has_id oid_subject_access l); reflexivity. }
  cbn [orb]. apply IH.
Qed.
End Certificate.

Definition pairs (l : list extension) : list (list Z * bytes) := map (fun x => (e_id x, e_value x)) l.
Lemma extensions_absent : forall l c c', decode_extensions l c = Some c' ->
  ((forall d, ~ In ([1; 3; 6; 1; 5; 5; 7; 1; 7], d) l) -> c_ips c' = c_ips c) /\
  ((forall d, ~ In ([1; 3; 6; 1; 5; 5; 7; 1; 8], d) l) -> c_asns c' = c_asns c) /\
  ((forall d, ~ In ([1; 3; 6; 1; 5; 5; 7; 1; 11], d) l) -> c_sia c' = c_sia c).
Proof.
  induction l as [|[o d] l IH]; intros c c' H; cbn [decode_extensions] in H; [injection H as <-; auto|].
  assert (Out : forall id, (forall x, ~ In (id, x) ((o, d) :: l)) -> o <> id /\ forall x, ~ In (id, x) l).
  { intros id A. split; [intros ->; apply (A d); now left|]. intros x I. apply (A x). now right. }
  destruct (oid_eqb o [1; 3; 6; 1; 5; 5; 7; 1; 7]) eqn:E1; [|destruct (oid_eqb o [1; 3; 6; 1; 5; 5; 7; 1; 8]) eqn:E2; [|destruct (oid_eqb o [1; 3; 6; 1; 5; 5; 7; 1; 11]) eqn:E3]].
  - apply (Bool.reflect_iff _ _ (oid_eqb_spec _ _)) in E1. destruct (decode_ip_ext d) as [ips ok]. destruct ok; [|discriminate H]. destruct (IH _ _ H) as (A & B & C).
    split; [|split]; intros N; apply Out in N; destruct N as (N1 & N2); [contradiction|exact (B N2)|exact (C N2)].
  - apply (Bool.reflect_iff _ _ (oid_eqb_spec _ _)) in E2. destruct (decode_as_ext d) as [[nums rdi] ok]. destruct ok; [|discriminate H]. destruct (IH _ _ H) as (A & B & C).
    split; [|split]; intros N; apply Out in N; destruct N as (N1 & N2); [exact (A N2)|contradiction|exact (C N2)].
  - apply (Bool.reflect_iff _ _ (oid_eqb_spec _ _)) in E3. destruct (decode_sia d) as [q|]; [|discriminate H]. destruct (IH _ _ H) as (A & B & C).
    split; [|split]; intros N; apply Out in N; destruct N as (N1 & N2); [exact (A N2)|exact (B N2)|contradiction].
  - destruct (IH _ _ H) as (A & B & C). split; [|split]; intros N; apply Out in N; destruct N as (N1 & N2); auto.
Qed.
Theorem certificate_absent : forall x509_parse d c0 exts c, x509_parse d = Some (c0, exts) -> decode_certificate x509_parse d = Some c ->
  ((forall b, ~ In ([1; 3; 6; 1; 5; 5; 7; 1; 7], b) exts) -> c_ips c = []) /\
  ((forall b, ~ In ([1; 3; 6; 1; 5; 5; 7; 1; 8], b) exts) -> c_asns c = []) /\
  ((forall b, ~ In ([1; 3; 6; 1; 5; 5; 7; 1; 11], b) exts) -> c_sia c = []).
Proof.
  intros x509_parse d c0 exts c P D. unfold decode_certificate in D. rewrite P in D. exact (extensions_absent exts _ c D).
Qed.
Lemma only_values : forall x l, only_one x l -> has_id (e_id x) (pairs l) = true /\ forall d, In (e_id x, d) (pairs l) -> d = e_value x.
Proof.
  intros x l [I U]. split.
  - unfold has_id. apply existsb_exists. exists (e_id x, e_value x). split; [|apply oid_eqb_refl].
    unfold pairs. apply in_map_iff. exists x. auto.
  - intros d Id. unfold pairs in Id. apply in_map_iff in Id. destruct Id as (y & E & Iy). injection E as E1 E2.
    now rewrite (U y Iy E1) in E2.
Qed.

Lemma ip_ext_eq : forall l, ip_ext l = match encode_ip_ext l with
  | Ret r => Ret (opt_map (mkExt oid_ip_blocks true) r)
  | Panic => Panic
  end.
Proof. reflexivity. Qed.
Lemma ip_ext_is : forall l b x, encode_ip_ext l = Ret (Some b) -> ip_ext l = Ret (Some x) -> x = mkExt oid_ip_blocks true b.
Proof. intros l b x E H. rewrite ip_ext_eq, E in H. cbn [opt_map] in H. now injection H as <-. Qed.
Lemma ip_ext_read : forall l x, all_canonical l -> ip_ext l = Ret (Some x) ->
  e_id x = oid_ip_blocks /\ (Z.of_nat (length (e_value x)) < 2 ^ 31 -> decode_ip_ext (e_value x) = (family_part 4 l ++ family_part 16 l, true)).
Proof.
  intros l x C H. destruct (ip_ext_octets l C) as (b & E & D). rewrite (ip_ext_is l b x E H). clear E H.
  cbn [e_id e_value]. split; [reflexivity|]. intros L. specialize (D L []). rewrite app_nil_r in D. exact D.
Qed.
Lemma as_ext_read : forall nums rdi x, as_list nums -> as_list rdi -> as_ext nums rdi = Some x ->
  e_id x = oid_as_ids /\ (Z.of_nat (length (e_value x)) < 2 ^ 31 -> decode_as_ext (e_value x) = (nums, rdi, true)).
Proof.
  intros nums rdi x C C' H. destruct (as_list_ext nums rdi C C') as (b & E & D). unfold as_ext in H. rewrite E in H. cbn [opt_map] in H.
  apply some_eq in H. subst x. cbn [e_id e_value]. split; [reflexivity|]. intros L. specialize (D L []). now rewrite app_nil_r in D.
Qed.
Lemma sia_ext_read : forall l x, Forall (fun s => object_id (fst s)) l -> sia_ext l = Some x ->
  e_id x = oid_subject_access /\ (Z.of_nat (length (e_value x)) < 2 ^ 31 -> decode_sia (e_value x) = Some l).
Proof.
  intros l x C H. destruct (sia_list l C) as (b & E & D). unfold sia_ext in H. rewrite E in H. cbn [opt_map] in H.
  apply some_eq in H. subst x. cbn [e_id e_value]. split; [reflexivity|]. intros L. specialize (D L []). now rewrite app_nil_r in D.
Qed.

Theorem certificate_read : forall x509_parse d c0 exts l nums rdi sias xi xa xs,
  x509_parse d = Some (c0, pairs exts) -> all_canonical l -> as_list nums -> as_list rdi ->
  Forall (fun s => object_id (fst s)) sias ->
  ip_ext l = Ret (Some xi) -> as_ext nums rdi = Some xa -> sia_ext sias = Some xs ->
  Forall (fun x => Z.of_nat (length (e_value x)) < 2 ^ 31) [xi; xa; xs] ->
  only_one xi exts -> only_one xa exts -> only_one xs exts ->
  exists c, decode_certificate x509_parse d = Some c /\
    c_ips c = family_part 4 l ++ family_part 16 l /\ c_asns c = nums /\
    c_sia c = map (fun s => (method_of (fst s), snd s)) sias /\
    c_ski c = c_ski c0 /\ c_aki c = c_aki c0 /\ c_key c = c_key c0 /\ c_serial c = c_serial c0.
Proof.
  intros x509_parse d c0 exts l nums rdi sias xi xa xs P CI CA CR CS EI EA ES L OI OA OS.
  rewrite Forall_forall in L.
  pose proof (L xi ltac:(cbn; auto)) as LI. pose proof (L xa ltac:(cbn; auto)) as LA. pose proof (L xs ltac:(cbn; auto)) as LS. clear L.
  destruct (ip_ext_read l xi CI EI) as [II DI]. destruct (as_ext_read nums rdi xa CA CR EA) as [IA DA].
  destruct (sia_ext_read sias xs CS ES) as [IS DS]. specialize (DI LI). specialize (DA LA). specialize (DS LS).
  clear EI EA ES LI LA LS.
  destruct (only_values _ _ OI) as [HI UI]. destruct (only_values _ _ OA) as [HA UA]. destruct (only_values _ _ OS) as [HS US].
  rewrite II in HI, UI. rewrite IA in HA, UA. rewrite IS in HS, US. clear OI OA OS II IA IS.
  unfold decode_certificate. rewrite P. clear P.
  destruct (extensions_read (e_value xi) (e_value xa) (e_value xs) _ nums rdi sias DI DA DS (pairs exts)
              (set_sia (set_asns (set_ips c0 []) []) []) UI UA US) as (c & E & A & B & C & D).
  exists c. split; [exact E|]. rewrite HI in A. rewrite HA in B. rewrite HS in C. auto.
Qed.

(** ** Marks *)
Theorem marks : (forall l x, ip_ext l = Ret (Some x) -> In (e_id x, e_critical x) critical_rfc6487) /\
  (forall a b x, as_ext a b = Some x -> In (e_id x, e_critical x) critical_rfc6487) /\
  (forall l x, sia_ext l = Some x -> In (e_id x, e_critical x) critical_rfc6487) /\
  (forall a p x, info_access_ext a p = Some x -> In (e_id x, e_critical x) critical_rfc6487) /\
  (forall p x, policy_ext p = Some x -> In (e_id x, e_critical x) critical_rfc6487).
Proof.
  split; [|split; [|split; [|split]]].
  - intros l x H. rewrite ip_ext_eq in H. destruct (encode_ip_ext l) as [[b|]|]; cbn in H; try discriminate. injection H as <-. cbn. auto 10.
  - intros a b x H. unfold as_ext in H. destruct (encode_as_ext a b); cbn [opt_map] in H; [|discriminate]. apply some_eq in H. subst x. cbn. auto 10.
  - intros l x H. unfold sia_ext in H. destruct (encode_sia l); cbn [opt_map] in H; [|discriminate]. apply some_eq in H. subst x. cbn. auto 10.
  - intros a p x H. unfold info_access_ext in H. destruct (marshal _ _); cbn [opt_map] in H; [|discriminate]. apply some_eq in H. subst x.
    destruct a; cbn; auto 10.
  - intros p x H. unfold policy_ext in H. destruct (marshal _ _); cbn [opt_map] in H; [|discriminate]. apply some_eq in H. subst x. cbn. auto 10.
Qed.

(** ** Where the claims fail *)
Definition accented : bytes := [114; 195; 169].   (* r, then e with an accent *)
Theorem non_ascii_written : exists d, info_access_ext false accented = Some (mkExt [1; 3; 6; 1; 5; 5; 7; 1; 11] false d) /\
  access_value [1; 3; 6; 1; 5; 5; 7; 48; 11] accented d /\ ~ ascii_text accented.
Proof.
  destruct (access_written false accented) as (d & E & A).
  - apply (utf8_ok_unicode accented); reflexivity.
  - reflexivity.
  - reflexivity.
  - exists d. split; [exact E|]. split; [exact A|]. intros F. inversion F as [|? ? ? F1]; subst. inversion F1; subst. lia.
Qed.

Theorem empty_qualifiers : exists d, policy_ext [] = Some (mkExt [2; 5; 29; 32] true d) /\
  forall cps, ~ policy_value [1; 3; 6; 1; 5; 5; 7; 14; 2] cps d.
Proof.
  exists [48; 14; 48; 12; 6; 8; 43; 6; 1; 5; 5; 7; 14; 2; 48; 0]. split; [vm_compute; reflexivity|].
  intros cps (c & e1 & e2 & e & O & C1 & Q & C2 & C3).
  assert (O' : oid_coded resource_octets [1; 3; 6; 1; 5; 5; 7; 14; 2]) by (apply known_oid; [reflexivity|split; [lia|reflexivity]]).
  rewrite (oid_unique _ _ _ O O') in C1. clear c O O'.
  assert (Short : forall id x y, coded id x y -> (length y < 100)%nat -> y = id :: encode_length (Z.of_nat (length x)) ++ x).
  { intros id x y C L. apply coded_is; [exact C|]. pose proof (coded_longer _ _ _ C). lia. }
  pose proof (coded_longer _ _ _ C3) as L3. pose proof (coded_longer _ _ _ C2) as L2. cbn [length] in L3. rewrite app_length in L2.
  apply Short in C1; [|lia]. change (encode_length (Z.of_nat (length resource_octets))) with [8] in C1. cbn [app] in C1.
  assert (LE : (length e <= 14)%nat) by lia.
  pose proof (Short _ _ _ C3 ltac:(cbn; lia)) as E3.
  assert (PL : forall n, (n < 128)%nat -> encode_length (Z.of_nat n) = [Z.of_nat n]).
  { intros n H. unfold encode_length. destruct (Z.leb_spec 128 (Z.of_nat n)); [lia|]. change 255 with (2 ^ 8 - 1).
    now rewrite land_low, Z.mod_small by lia. }
  rewrite PL in E3 by lia. injection E3 as E3 E3'. subst e.
  pose proof (Short _ _ _ C2 ltac:(cbn; lia)) as E2. rewrite PL in E2 by (rewrite app_length; lia).
  injection E2 as E2 E2'. rewrite C1 in E2'. unfold resource_octets in E2'. cbn [app] in E2'. injection E2' as E2'. subst e2.
  inversion Q as [|uri c0 f1 f2 f f' A O D1 D2 D3 D4]; subst.
  pose proof (coded_longer _ _ _ D4) as L4. pose proof (coded_longer _ _ _ D3) as L5. cbn [length] in L4. lia.
Qed.

Theorem created_tal_crashes : forall uris k n e t, k = RSAPtr n e \/ k = RSAVal n e ->
  create_tal uris k = Some t -> forall key, check_certificate t alg_rsa key = Panic.
Proof. intros uris k n e t K H key. destruct K as [-> | ->]; apply some_eq in H; subst t; reflexivity. Qed.
