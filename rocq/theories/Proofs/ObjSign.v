(** Objects made by EncodeCMS and Sign are read back by the decoders. *)
From Coq Require Import Lia Bool ZifyBool ZifyNat Permutation.
From Verif.Model Require Import Base Str NetIP CertRes Roa Ber Asn1 GoTime Der Tal Cms Validator ObjDer.
From Verif.Spec Require Import Addr Resources Bits Canon BerSpec CmsSpec ObjSpec.
From Verif.Proofs Require Import StrProofs NetIPProofs BerProofs OutputProofs DerPrim DerProofs DerBytes ObjEncode CmsProofs.
Ltac Zify.zify_post_hook ::= Z.div_mod_to_equations.

Definition oid_octets (o : list Z) : bytes := put_tlv 0 false 6 (odefault [] (put_oid o)).
Definition oid_raw (o : list Z) : raw := tlv_raw 0 false 6 (odefault [] (put_oid o)).

Lemma put_oid_some : forall o, oid_fits o -> put_oid o = Some (odefault [] (put_oid o)).
Proof. intros o H. destruct (oid_back o H) as (b & -> & _). reflexivity. Qed.

Lemma make_oid : forall o, oid_fits o -> make_field GOid p0 (VOid o) = Some (oid_octets o).
Proof.
  intros o H. rewrite make_field_eq, left_out_p0. cbn [make_tag universal make_body p0 p_set].
  rewrite (put_oid_some o H). reflexivity.
Qed.
Lemma make_oid_marshal : forall o, oid_fits o -> marshal_oid o = Some (oid_octets o).
Proof. exact make_oid. Qed.
Lemma make_octets : forall b, make_field GOctets p0 (VOctets b) = Some (put_tlv 0 false 4 b).
Proof. reflexivity. Qed.
Lemma make_int : forall n, make_field GInt p0 (VInt n) = Some (int_octets n).
Proof. reflexivity. Qed.

Lemma pok_set : forall t, params_ok (GSlice t) p_as_set.
Proof. intros. split; [reflexivity|]. split; [intros _; exact I|exact I]. Qed.
Lemma pok_opt_set : forall t k, 0 <= k < 31 -> params_ok (GSlice t) (p_opt_set k).
Proof. intros. split; [cbn; lia|]. split; [intros _; exact I|exact I]. Qed.
Lemma pok_opt_tag : forall t k, 0 <= k < 31 -> match t with GString => False | GTime => False | _ => True end ->
  params_ok t (p_opt_tag k).
Proof. intros t k Hk H. split; [exact Hk|]. split; [discriminate|]. destruct t; try exact I; contradiction. Qed.

Lemma wrapped_struct : forall fs l k b, make_fields fs l = Some b ->
  make_field (GStruct false fs) (p_wrapped k) (VStruct [] l) = Some (put_tlv 2 true k (put_tlv 0 true 16 b)).
Proof.
  intros fs l k b H. rewrite make_field_eq.
  change (left_out (p_wrapped k) (VStruct [] l)) with false. cbv iota.
  cbn [make_tag universal make_body p_wrapped p_set]. rewrite H. reflexivity.
Qed.

(** A set of values *)
Lemma set_octets_of : forall t l bs, all_some (map (make_field t p0) l) = Some bs ->
  make_field (GSlice t) p_as_set (VSlice l) = Some (put_tlv 0 true 17 (concat (sort_bytes bs))).
Proof.
  intros t l bs H. rewrite make_field_eq. change (left_out p_as_set (VSlice l)) with false. cbv iota.
  cbn [make_tag universal make_body p_as_set p_set]. rewrite H. cbn [opt_map]. reflexivity.
Qed.
Lemma opt_set_octets_of : forall t k v l bs, all_some (map (make_field t p0) (v :: l)) = Some bs ->
  make_field (GSlice t) (p_opt_set k) (VSlice (v :: l)) = Some (put_tlv 2 true k (concat (sort_bytes bs))).
Proof.
  intros t k v l bs H. rewrite make_field_eq. change (left_out (p_opt_set k) (VSlice (v :: l))) with false. cbv iota.
  cbn [make_tag universal make_body p_opt_set p_set]. rewrite H. cbn [opt_map]. reflexivity.
Qed.

(** ** Attributes *)
Definition attr_good (a : attribute) : Prop :=
  oid_fits (at_type a) /\ Forall (fun r => fits GRaw p0 (VRaw r)) (at_values a) /\
  sort_bytes (map r_full (at_values a)) = map r_full (at_values a).
Definition attr_bytes (a : attribute) : bytes :=
  put_tlv 0 true 16 (oid_octets (at_type a) ++ put_tlv 0 true 17 (concat (sort_bytes (map r_full (at_values a))))).

Lemma make_raws : forall l, Forall (fun r => r_full r <> []) l ->
  all_some (map (make_field GRaw p0) (map VRaw l)) = Some (map r_full l).
Proof.
  intros l H. rewrite map_map. apply all_some_map. intros r Hr. apply make_raw. rewrite Forall_forall in H. auto.
Qed.

Lemma make_attr : forall a, oid_fits (at_type a) -> Forall (fun r => r_full r <> []) (at_values a) ->
  make_field t_attr p0 (v_attr a) = Some (attr_bytes a).
Proof.
  intros a Ho Hv. apply struct_octets. cbn [make_fields]. rewrite make_oid by exact Ho.
  unfold v_raws. rewrite (set_octets_of _ _ (map r_full (at_values a))) by (now apply make_raws).
  now rewrite app_nil_r.
Qed.

Lemma fits_raw_ne : forall p r, fits GRaw p (VRaw r) -> r_full r <> [].
Proof. intros p r (_ & N & _). exact N. Qed.
Lemma good_ne : forall l, Forall (fun r => fits GRaw p0 (VRaw r)) l -> Forall (fun r => r_full r <> []) l.
Proof. intros l H. eapply Forall_impl; [|exact H]. intros r. apply fits_raw_ne. Qed.

Lemma attr_fits : forall a, attr_good a -> fits t_attr p0 (v_attr a).
Proof.
  intros a (Ho & Hv & Hs). apply fits_struct. split; [now apply pok_plain|]. cbn [fits_fields]. rewrite left_out_p0.
  split; [split; [now apply pok_plain|exact Ho]|]. split; [|exact I].
  change (left_out p_as_set (v_raws (at_values a))) with false. cbv iota.
  unfold v_raws. apply fits_slice. split; [apply pok_set|]. split; [now apply Forall_map|].
  intros _. rewrite make_raws by (now apply good_ne). exact Hs.
Qed.

Lemma attr_view_octets : forall a, attr_octets (attr_view a) = attr_bytes a.
Proof.
  intros a. unfold attr_octets, attr_bytes, attr_view, oid_octets. cbn [a_type a_values]. rewrite map_map.
  cbn [fst]. reflexivity.
Qed.
Lemma attr_of_v : forall a, attr_of (v_attr a) = Some a.
Proof.
  intros [o l]. cbn [v_attr attr_of at_type at_values v_raws slice_of]. rewrite map_opt_map by reflexivity. reflexivity.
Qed.

(** The attributes in the order of their octets *)
Lemma sorted_attrs : forall l, exists l', Permutation l l' /\ map attr_bytes l' = sort_bytes (map attr_bytes l).
Proof.
  intros l. pose proof (sort_perm (map attr_bytes l)) as P. symmetry in P.
  apply Permutation_map_inv in P. destruct P as (l' & E & P). exists l'. split; [exact P|symmetry; exact E].
Qed.

(** ** The object *)
Section Object.
  Variables (o : list Z) (content cert ski sig : bytes) (attrs : list attribute).
  Hypothesis Ho : oid_fits o.
  Hypothesis Hski : ski <> [].
  Hypothesis Hattrs : Forall attr_good attrs.
  Hypothesis Hne : attrs <> [].

  Definition alg_raw : raw := tlv_raw 0 true 16 (oid_octets oid_rsa ++ null_octets).
  Definition inner_tlv : bytes := put_tlv 0 false 4 content.
  Definition encap_raw : raw := tlv_raw 0 true 16 (oid_octets o ++ put_tlv 2 true 0 inner_tlv).
  Definition signer_body : bytes :=
    int_octets 3 ++ put_tlv 2 false 0 ski ++ put_tlv 0 true 16 (oid_octets oid_sha256)
    ++ put_tlv 2 true 0 (concat (sort_bytes (map attr_bytes attrs))) ++ r_full alg_raw ++ put_tlv 0 false 4 sig.
  Definition signed_body : bytes :=
    int_octets 3 ++ put_tlv 0 true 17 (put_tlv 0 true 16 (oid_octets oid_sha256)) ++ r_full encap_raw
    ++ put_tlv 2 true 0 cert ++ put_tlv 0 true 17 (put_tlv 0 true 16 signer_body).
  Definition object_octets : bytes :=
    put_tlv 0 true 16 (oid_octets oid_signed_data ++ put_tlv 2 true 0 (put_tlv 0 true 16 signed_body)).

  (** The object with the given raw values of unspecified other fields *)
  Definition object_with (dg en ce sid do al : raw) (ats : list attribute) : cms_obj :=
    mkCO oid_signed_data (mkSD 3 [dg] en ce raw0 [mkSI 3 sid [do] ats al sig raw0]).

  Lemma raw_made : forall p r c k t b, r_full r = put_tlv c k t b -> make_field GRaw p (VRaw r) = Some (put_tlv c k t b).
  Proof using.
    intros p r c k t b E. rewrite make_field_eq. destruct (put_tlv_cons c k t b) as (x & w & Ew).
    rewrite Ew in E. unfold left_out, is_zero, raw_zero. rewrite E, Ew. rewrite !andb_false_r. cbn [orb].
    destruct (p_default p); rewrite andb_false_r; reflexivity.
  Qed.

  Lemma signer_made : forall sid do al ats,
    r_full sid = put_tlv 2 false 0 ski ->
    r_full do = oid_octets oid_sha256 -> r_full al = r_full alg_raw ->
    ats <> [] -> Forall (fun a => oid_fits (at_type a) /\ Forall (fun r => r_full r <> []) (at_values a)) ats ->
    sort_bytes (map attr_bytes ats) = sort_bytes (map attr_bytes attrs) ->
    make_field t_signer p0 (v_signer (mkSI 3 sid [do] ats al sig raw0)) = Some (put_tlv 0 true 16 signer_body).
  Proof using.
    intros sid do al ats Esid Edo Eal Ane Ag As.
    assert (Mats : make_field (GSlice t_attr) (p_opt_set 0) (VSlice (map v_attr ats))
              = Some (put_tlv 2 true 0 (concat (sort_bytes (map attr_bytes attrs))))).
    { rewrite <- As. destruct ats as [|a ats]; [congruence|]. cbn [map]. apply opt_set_octets_of.
      change (v_attr a :: map v_attr ats) with (map v_attr (a :: ats)). rewrite map_map.
      rewrite (all_some_map _ _ _ attr_bytes); [reflexivity|]. intros x Hx. rewrite Forall_forall in Ag.
      apply make_attr; apply Ag, Hx. }
    apply struct_octets. cbn [sg_version sg_sid sg_digest sg_attrs sg_alg sg_sig sg_unsigned make_fields].
    rewrite make_int, (raw_made p0 sid 2 false 0 ski Esid), (raw_made p0 al 0 true 16 (oid_octets oid_rsa ++ null_octets) Eal), Mats.
    assert (Md : make_field (GSlice GRaw) p0 (v_raws [do]) = Some (put_tlv 0 true 16 (oid_octets oid_sha256))).
    { unfold v_raws. cbn [map]. change (make_field (GSlice GRaw) p0) with (marshal (GSlice GRaw)).
      rewrite (slice_octets GRaw [VRaw do] [oid_octets oid_sha256]); [cbn [concat]; now rewrite app_nil_r|].
      cbn [map all_some]. rewrite (raw_made p0 do 0 false 6 (odefault [] (put_oid oid_sha256)) Edo). reflexivity. }
    rewrite Md, make_octets. change (make_field GRaw (p_opt_tag 1) (VRaw raw0)) with (Some (@nil Z)).
    cbv beta iota. rewrite !app_nil_r. reflexivity.
  Qed.

  Lemma object_made : forall dg en ce sid do al ats,
    r_full dg = put_tlv 0 true 16 (oid_octets oid_sha256) -> r_full en = r_full encap_raw ->
    r_full ce = put_tlv 2 true 0 cert -> r_full sid = put_tlv 2 false 0 ski ->
    r_full do = oid_octets oid_sha256 -> r_full al = r_full alg_raw ->
    ats <> [] -> Forall (fun a => oid_fits (at_type a) /\ Forall (fun r => r_full r <> []) (at_values a)) ats ->
    sort_bytes (map attr_bytes ats) = sort_bytes (map attr_bytes attrs) ->
    marshal_cms (object_with dg en ce sid do al ats) = Some object_octets.
  Proof using.
    intros dg en ce sid do al ats Edg Een Ece Esid Edo Eal Ane Ag As.
    pose proof (signer_made sid do al ats Esid Edo Eal Ane Ag As) as Ms.
    assert (Md : make_field t_signed (p_wrapped 0) (v_signed (mkSD 3 [dg] en ce raw0 [mkSI 3 sid [do] ats al sig raw0]))
             = Some (put_tlv 2 true 0 (put_tlv 0 true 16 signed_body))).
    { unfold v_signed. cbn [sd_version sd_digest sd_encap sd_certs sd_crls sd_signers]. apply wrapped_struct.
      cbn [make_fields]. rewrite make_int, (raw_made p0 en 0 true 16 (oid_octets o ++ put_tlv 2 true 0 inner_tlv) Een), (raw_made (p_opt_tag 0) ce 2 true 0 cert Ece).
      assert (Mdg : make_field (GSlice GRaw) p_as_set (v_raws [dg])
         = Some (put_tlv 0 true 17 (put_tlv 0 true 16 (oid_octets oid_sha256)))).
      { unfold v_raws. rewrite (set_octets_of _ _ [put_tlv 0 true 16 (oid_octets oid_sha256)]).
        - cbn [sort_bytes fold_right insert_bytes concat]. now rewrite app_nil_r.
        - cbn [map all_some]. rewrite (raw_made p0 dg 0 true 16 (oid_octets oid_sha256) Edg). reflexivity. }
      rewrite Mdg. change (make_field GRaw (p_opt_tag 1) (VRaw raw0)) with (Some (@nil Z)).
      assert (Mss : make_field (GSlice t_signer) p_as_set (VSlice (map v_signer [mkSI 3 sid [do] ats al sig raw0]))
         = Some (put_tlv 0 true 17 (put_tlv 0 true 16 signer_body))).
      { rewrite (set_octets_of _ _ [put_tlv 0 true 16 signer_body]).
        - cbn [sort_bytes fold_right insert_bytes concat]. now rewrite app_nil_r.
        - cbn [map all_some]. rewrite Ms. reflexivity. }
      rewrite Mss. cbv beta iota. rewrite app_nil_r. reflexivity. }
    unfold marshal_cms. apply struct_octets. cbn [object_with co_oid co_data make_fields].
    rewrite make_oid by (split; [left; lia|reflexivity]). rewrite Md. now rewrite app_nil_r.
  Qed.

  (** What the decoder finds *)
  Definition digest_raw : raw := tlv_raw 0 true 16 (oid_octets oid_sha256).
  Definition certs_raw : raw := tlv_raw 2 true 0 cert.
  Definition sid_raw : raw := tlv_raw 2 false 0 ski.
  Definition decoded (ats : list attribute) : cms_obj :=
    object_with digest_raw encap_raw certs_raw sid_raw (oid_raw oid_sha256) alg_raw ats.

  Lemma signer_of_v : forall s, signer_of (v_signer s) = Some s.
  Proof using.
    intros [n sid d a al sg u]. cbn [v_signer signer_of sg_version sg_sid sg_digest sg_attrs sg_alg sg_sig sg_unsigned v_raws slice_of].
    rewrite map_opt_map by reflexivity. rewrite map_opt_map by (intros; apply attr_of_v). reflexivity.
  Qed.
  Lemma cms_of_v : forall c, cms_of (v_cms c) = Some c.
  Proof using.
    intros [oid [n d e c r s]]. cbn [v_cms cms_of co_oid co_data v_signed signed_of sd_version sd_digest sd_encap sd_certs sd_crls sd_signers v_raws slice_of].
    rewrite map_opt_map by reflexivity. rewrite map_opt_map by (intros; apply signer_of_v). reflexivity.
  Qed.

  Lemma object_read : Z.of_nat (length object_octets) < 2 ^ 31 ->
    exists ats, Permutation attrs ats /\ forall rest, decode_cms (object_octets ++ rest) = Some (decoded ats).
  Proof using Ho Hski Hattrs Hne.
    intros L. destruct (sorted_attrs attrs) as (ats & P & S). exists ats. split; [exact P|]. intros rest.
    assert (Hats : Forall attr_good ats).
    { apply Forall_forall. intros a Ha. rewrite Forall_forall in Hattrs. apply Hattrs.
      eapply Permutation_in; [symmetry; exact P|exact Ha]. }
    assert (Ane : ats <> []) by (intros ->; symmetry in P; apply Permutation_nil in P; congruence).
    assert (M : marshal_cms (decoded ats) = Some object_octets).
    { apply object_made; try reflexivity; auto.
      - eapply Forall_impl; [|exact Hats]. intros a (X & Y & _). split; [exact X|now apply good_ne].
      - rewrite S. now rewrite sort_twice. }
    assert (Srt : sort_bytes (map attr_bytes ats) = map attr_bytes ats) by (rewrite S; apply sort_twice).
    (* lengths *)
    assert (LL : forall c k t b n, (Z.of_nat (length (put_tlv c k t b)) < n) -> Z.of_nat (length b) < n).
    { intros c k t b n H. pose proof (put_tlv_length c k t b). lia. }
    assert (LA : forall (a b : bytes) n, Z.of_nat (length (a ++ b)) < n -> Z.of_nat (length a) < n /\ Z.of_nat (length b) < n).
    { intros a b n H. rewrite app_length in H. lia. }
    pose proof L as L1. unfold object_octets in L1. apply LL, LA in L1. destruct L1 as [_ L1]. apply LL in L1. apply LL in L1.
    unfold signed_body in L1. apply LA in L1. destruct L1 as [_ L1]. apply LA in L1. destruct L1 as [Ldg L1].
    apply LA in L1. destruct L1 as [Len L1]. apply LA in L1. destruct L1 as [Lce Ls].
    apply LL in Ls. pose proof Ls as Lss. apply LL in Ls. unfold signer_body in Ls.
    apply LA in Ls. destruct Ls as [_ Ls]. apply LA in Ls. destruct Ls as [Lski Ls].
    apply LA in Ls. destruct Ls as [Ldo Ls]. apply LA in Ls. destruct Ls as [Lat Ls].
    apply LA in Ls. destruct Ls as [Lal Lsig].
    assert (Hdg : fits GRaw p0 (VRaw digest_raw)) by (apply tlv_raw_fits; [lia|lia|now apply LL in Ldo]).
    assert (Hen : fits GRaw p0 (VRaw encap_raw)) by (apply tlv_raw_fits; [lia|lia|now apply LL in Len]).
    assert (Hal : fits GRaw p0 (VRaw alg_raw)) by (apply tlv_raw_fits; [lia|lia|now apply LL in Lal]).
    assert (Hsid : fits GRaw p0 (VRaw sid_raw)) by (apply tlv_raw_fits; [lia|lia|now apply LL in Lski]).
    assert (Hdo : fits GRaw p0 (VRaw (oid_raw oid_sha256))) by (apply tlv_raw_fits; [lia|lia|vm_compute; reflexivity]).
    assert (Hce : fits GRaw (p_opt_tag 0) (VRaw certs_raw)).
    { split; [apply pok_opt_tag; [lia|exact I]|]. split; [apply tlv_full_ne|]. split.
      - intros r. cbn [certs_raw tlv_raw r_full r_class r_cons r_tag r_bytes]. apply tlv_read; [lia|lia|now apply LL in Lce].
      - split; [reflexivity|]. split; [reflexivity|discriminate]. }
    unfold decode_cms. apply (read_back _ _ _ (v_cms (decoded ats))); [|exact M|exact L|apply cms_of_v].
    assert (Fats : fits (GSlice t_attr) (p_opt_set 0) (VSlice (map v_attr ats))).
    { apply fits_slice. split; [apply pok_opt_set; lia|]. split.
      - apply Forall_map. eapply Forall_impl; [|exact Hats]. exact attr_fits.
      - intros _. rewrite map_map. rewrite (all_some_map _ _ _ attr_bytes); [exact Srt|].
        intros a Ha. rewrite Forall_forall in Hats. destruct (Hats a Ha) as (X & Y & _). apply make_attr; [exact X|now apply good_ne]. }
    assert (Fs : fits t_signer p0 (v_signer (mkSI 3 sid_raw [oid_raw oid_sha256] ats alg_raw sig raw0))).
    { apply fits_struct. split; [now apply pok_plain|].
      cbn [sg_version sg_sid sg_digest sg_attrs sg_alg sg_sig sg_unsigned fits_fields]. rewrite !left_out_p0.
      split; [apply int_fits; unfold int64; lia|]. split; [exact Hsid|].
      split; [apply fits_slice; split; [now apply pok_plain|]; split; [constructor; [exact Hdo|constructor]|discriminate]|].
      split; [|].
      { destruct ats as [|a ats']; [congruence|]. exact Fats. }
      split; [exact Hal|]. split; [split; [now apply pok_plain|exact I]|].
      split; [|exact I]. change (left_out (p_opt_tag 1) (VRaw raw0)) with true. cbv iota. split; [reflexivity|exact I]. }
    assert (Ms : make_field t_signer p0 (v_signer (mkSI 3 sid_raw [oid_raw oid_sha256] ats alg_raw sig raw0))
                 = Some (put_tlv 0 true 16 signer_body)).
    { apply signer_made; try reflexivity; auto.
      - eapply Forall_impl; [|exact Hats]. intros a (X & Y & _). split; [exact X|now apply good_ne].
      - rewrite S. now rewrite sort_twice. }
    apply fits_struct. split; [now apply pok_plain|]. cbn [decoded object_with co_oid co_data fits_fields]. rewrite left_out_p0.
    split; [split; [now apply pok_plain|split; [left; lia|reflexivity]]|]. split; [|exact I].
    unfold v_signed. cbn [sd_version sd_digest sd_encap sd_certs sd_crls sd_signers map].
    match goal with |- if left_out ?p ?v then _ else _ => change (left_out p v) with false end. cbv iota.
    assert (Fss : fits (GSlice t_signer) p_as_set (VSlice [v_signer (mkSI 3 sid_raw [oid_raw oid_sha256] ats alg_raw sig raw0)])).
    { apply fits_slice. split; [apply pok_set|]. split; [now constructor|]. intros _.
      cbn [map all_some]. rewrite Ms. reflexivity. }
    apply fits_struct. split; [split; [cbn; lia|split; [discriminate|exact I]]|].
    cbn [fits_fields]. rewrite !left_out_p0.
    split; [apply int_fits; unfold int64; lia|].
    split.
    { change (left_out p_as_set (v_raws [digest_raw])) with false. cbv iota. apply fits_slice.
      split; [apply pok_set|]. split; [constructor; [exact Hdg|constructor]|]. intros _. cbn [map all_some].
      rewrite make_raw by apply tlv_full_ne. reflexivity. }
    split; [exact Hen|].
    split; [change (left_out (p_opt_tag 0) (VRaw certs_raw)) with false; exact Hce|].
    split.
    { change (left_out (p_opt_tag 1) (VRaw raw0)) with true. cbv iota. split; [reflexivity|].
      cbn [make_fields]. rewrite (set_octets_of _ _ [put_tlv 0 true 16 signer_body]) by (cbn [map all_some]; rewrite Ms; reflexivity).
      cbn [sort_bytes fold_right insert_bytes concat]. rewrite !app_nil_r. unfold skips.
      pose proof (tlv_read 0 true 17 (put_tlv 0 true 16 signer_body) [] ltac:(lia) ltac:(lia) Lss) as X. rewrite app_nil_r in X. rewrite X.
      destruct (put_tlv_cons 0 true 17 (put_tlv 0 true 16 signer_body)) as (x & w & ->). reflexivity. }
    split; [|exact I]. exact Fss.
  Qed.
End Object.

(** ** The two readers of raw values are the same *)
Lemma raw_reader : forall l,
  unmarshal GRaw l = opt_map (fun x => (VRaw (fst x), snd x)) (parse_raw l).
Proof.
  intros l. unfold unmarshal. rewrite parse_field_eq. destruct l as [|b r]; [reflexivity|].
  unfold parse_header, parse_raw.
  destruct (if b mod 32 =? 31 then _ else _) as [[tag r1]|]; [|reflexivity].
  destruct (parse_length r1) as [[n r2]|]; [|reflexivity].
  unfold open_explicit, matches. cbn [p0 p_explicit p_tag universal andb orb negb h_len decode_inner h_class h_cons h_tag].
  destruct (Z.of_nat (length r2) <? n); reflexivity.
Qed.

Lemma tlv_raw_parsed : forall c k t b rest, 0 <= c < 4 -> 0 <= t < 31 -> Z.of_nat (length (put_tlv c k t b)) < 2 ^ 31 ->
  parse_raw (put_tlv c k t b ++ rest) = Some (tlv_raw c k t b, rest).
Proof.
  intros c k t b rest Hc Ht L.
  assert (F : fits GRaw p0 (VRaw (tlv_raw c k t b))) by (apply tlv_raw_fits; auto; pose proof (put_tlv_length c k t b); lia).
  pose proof (unmarshal_marshal GRaw (VRaw (tlv_raw c k t b)) (put_tlv c k t b) F) as U.
  specialize (U (make_raw _ (tlv_full_ne c k t b)) L rest). rewrite raw_reader in U.
  destruct (parse_raw (put_tlv c k t b ++ rest)) as [[r s]|]; [|discriminate].
  cbn [opt_map fst snd] in U. apply some_eq in U. assert (X : VRaw r = VRaw (tlv_raw c k t b)) by exact (f_equal fst U). assert (Y : s = rest) by exact (f_equal snd U). rewrite Y. now injection X as ->.
Qed.

Lemma tlv_grouped : forall c k t b, 0 <= c < 4 -> 0 <= t < 31 -> t <> 4 -> Z.of_nat (length (put_tlv c k t b)) < 2 ^ 31 ->
  grouped (put_tlv c k t b) = Some (put_tlv c k t b, false).
Proof.
  intros c k t b Hc Ht H4 L. unfold grouped, bad_format_group.
  pose proof (tlv_raw_parsed c k t b [] Hc Ht L) as P. rewrite app_nil_r in P. rewrite P.
  cbn [tlv_raw r_tag r_full]. destruct (Z.eqb_spec t 4); [congruence|]. reflexivity.
Qed.

(** ** Signing *)
Definition time_tlv (t : gotime) : Z * bytes :=
  if use_generalized p0 t then (24, odefault [] (put_generalized t)) else (23, odefault [] (put_utc t)).
Lemma time_octets : forall t, date_fits t ->
  marshal GTime (VTime t) = Some (put_tlv 0 false (fst (time_tlv t)) (snd (time_tlv t))) /\
  0 <= fst (time_tlv t) < 31 /\ (length (snd (time_tlv t)) <= 19)%nat.
Proof.
  intros t H. assert (LC : (length (put_common t) <= 15)%nat).
  { unfold put_common. repeat rewrite app_length. destruct (tm_off t =? 0); [cbn; lia|].
    destruct (0 <? tm_off t); cbn; lia. }
  unfold marshal, time_tlv. rewrite make_field_eq, left_out_p0. cbn [make_tag make_body].
  destruct (use_generalized p0 t) eqn:U; cbn [fst snd].
  - destruct (generalized_back t H) as (b & E & _). rewrite E. split; [reflexivity|]. split; [lia|]. cbn [odefault].
    unfold put_generalized in E. destruct (_ || _); [discriminate|]. apply some_eq in E. subst b.
    rewrite app_length. change (length (four_digits (tm_year t))) with 4%nat. lia.
  - unfold use_generalized in U. destruct (utc_back t H ltac:(lia)) as (b & E & _). rewrite E.
    split; [reflexivity|]. split; [lia|]. cbn [odefault].
    unfold put_utc in E. destruct (_ && _); [|destruct (_ && _); [|discriminate]]; apply some_eq in E; subst b; rewrite app_length.
    + change (length (two_digits (tm_year t - 1900))) with 2%nat. lia.
    + change (length (two_digits (tm_year t - 2000))) with 2%nat. lia.
Qed.

Lemma put_tlv_short : forall c k t b, 0 <= t < 31 -> (length b < 128)%nat -> length (put_tlv c k t b) = (2 + length b)%nat.
Proof.
  intros c k t b Ht H. unfold put_tlv, put_header. destruct (31 <=? t) eqn:E; [lia|].
  unfold encode_length. destruct (128 <=? Z.of_nat (length b)) eqn:E2; [lia|]. reflexivity.
Qed.

Lemma put_tlv_skip : forall c k t b, 0 <= t < 31 -> (length b < 128)%nat -> skipn 2 (put_tlv c k t b) = b.
Proof.
  intros c k t b Ht H. unfold put_tlv, put_header. destruct (31 <=? t) eqn:E; [lia|].
  unfold encode_length. destruct (128 <=? Z.of_nat (length b)) eqn:E2; [lia|]. reflexivity.
Qed.

(** What is signed is the DigestInfo of the digest. *)
Lemma digest_octets_info : forall h, length h = 32%nat -> digest_octets h = Some (digest_info h).
Proof.
  intros h L. unfold digest_octets.
  assert (E : put_tlv 0 false 4 h = [4; 32] ++ h).
  { unfold put_tlv, put_header, encode_length. rewrite L. reflexivity. }
  assert (I : make_field t_sig_inner p0 (VStruct [] [VOid oid_sha256; VRaw (raw_full null_octets)])
              = Some [48; 13; 6; 9; 96; 134; 72; 1; 101; 3; 4; 2; 1; 5; 0]) by (vm_compute; reflexivity).
  unfold t_signature. rewrite (struct_octets _ _ ([48; 13; 6; 9; 96; 134; 72; 1; 101; 3; 4; 2; 1; 5; 0] ++ [4; 32] ++ h)).
  - unfold put_tlv, put_header, encode_length. rewrite !app_length, L. reflexivity.
  - cbn [make_fields]. rewrite I, make_octets, E. now rewrite app_nil_r.
Qed.


Lemma concat_length : forall l : list bytes, length (concat l) = fold_right Nat.add 0%nat (map (@length Z) l).
Proof. induction l as [|x l IH]; [reflexivity|]. cbn [concat map fold_right]. rewrite app_length. f_equal. exact IH. Qed.
Lemma perm_sum : forall a b, Permutation a b -> fold_right Nat.add 0%nat a = fold_right Nat.add 0%nat b.
Proof. induction 1; cbn [fold_right]; lia. Qed.

Section Made.
  Variable sha256 : bytes -> bytes.
  Variable rsa_sign : bytes -> option bytes.
  Variables (o : list Z) (content ski : bytes) (cert_class : Z) (cert_cons : bool) (cert_tag : Z) (cert_body : bytes) (time : gotime).
  Hypothesis sha_octets : forall b, length (sha256 b) = 32%nat.
  Hypothesis Ho : oid_fits o.
  Hypothesis Hol : (length (odefault [] (put_oid o)) <= 11)%nat.
  Hypothesis Hski : ski <> [].
  Hypothesis Htime : date_fits time.
  Hypothesis Hcc : 0 <= cert_class < 4.
  Hypothesis Hct : 0 <= cert_tag < 31.
  Let cert : bytes := put_tlv cert_class cert_cons cert_tag cert_body.
  Hypothesis Hcert : Z.of_nat (length cert) < 2 ^ 31.

  (** The attributes Sign signs *)
  Definition made_attrs : list attribute :=
    [mkAttribute oid_content_type [oid_raw o];
     mkAttribute oid_signing_time [tlv_raw 0 false (fst (time_tlv time)) (snd (time_tlv time))];
     mkAttribute oid_digest [tlv_raw 0 false 4 (sha256 content)]].
  Definition to_sign : bytes := put_tlv 0 true 17 (concat (sort_bytes (map attr_bytes made_attrs))).

  Lemma made_good : Forall attr_good made_attrs.
  Proof using All.
    destruct (time_octets time Htime) as (_ & Ht & Lt).
    assert (G : forall ty c k t b, oid_fits ty -> 0 <= c < 4 -> 0 <= t < 31 -> Z.of_nat (length b) < 2 ^ 31 ->
              attr_good (mkAttribute ty [tlv_raw c k t b])).
    { intros. split; [assumption|]. split; [|reflexivity]. constructor; [|constructor]. now apply tlv_raw_fits. }
    unfold made_attrs, oid_raw. constructor; [|constructor; [|constructor; [|constructor]]]; apply G; try lia.
    - split; [left; lia|reflexivity].
    - split; [left; lia|reflexivity].
    - split; [left; lia|reflexivity].
    - pose proof (sha_octets content). lia.
  Qed.

  Lemma attr_one_length : forall ty c k t b, length (odefault [] (put_oid ty)) = 9%nat -> 0 <= t < 31 ->
    (length b <= 32)%nat -> length (attr_bytes (mkAttribute ty [tlv_raw c k t b])) = (17 + length b)%nat.
  Proof using All.
    intros ty c k t b Lo Ht Lb. unfold attr_bytes, oid_octets. cbn [at_type at_values map].
    change (r_full (tlv_raw c k t b)) with (put_tlv c k t b).
    change (sort_bytes [put_tlv c k t b]) with [put_tlv c k t b]. cbn [concat]. rewrite app_nil_r.
    assert (L1 : length (put_tlv c k t b) = (2 + length b)%nat) by (apply put_tlv_short; lia).
    assert (L2 : length (put_tlv 0 true 17 (put_tlv c k t b)) = (4 + length b)%nat) by (rewrite put_tlv_short by lia; lia).
    assert (L3 : length (put_tlv 0 false 6 (odefault [] (put_oid ty))) = 11%nat) by (rewrite put_tlv_short by lia; lia).
    rewrite put_tlv_short; rewrite ?app_length; lia.
  Qed.

  (** They are short: less than 128 octets. *)
  Lemma to_sign_short : (length to_sign < 128)%nat.
  Proof using All.
    destruct (time_octets time Htime) as (_ & Ht & Lt).
    assert (E : length (concat (sort_bytes (map attr_bytes made_attrs))) =
                length (concat (map attr_bytes made_attrs))).
    { rewrite !concat_length. apply perm_sum. apply Permutation_map. symmetry. apply sort_perm. }
    unfold to_sign. rewrite put_tlv_short; [|lia|]; rewrite E; unfold made_attrs; cbn [map concat];
      rewrite !app_length; unfold oid_raw;
      rewrite (attr_one_length oid_content_type), (attr_one_length oid_signing_time), (attr_one_length oid_digest);
      try reflexivity; try lia; rewrite ?sha_octets; cbn [length]; lia.
  Qed.

  Variable sig : bytes.
  Hypothesis Hsig : rsa_sign (digest_info (sha256 to_sign)) = Some sig.

  Definition made_octets : bytes := object_octets o content cert ski sig made_attrs.

  Lemma lens_encap : Z.of_nat (length made_octets) < 2 ^ 31 -> Z.of_nat (length (r_full (encap_raw o content))) < 2 ^ 31.
  Proof using All.
    intros L. unfold made_octets, object_octets in L.
    pose proof (put_tlv_length 0 true 16 (oid_octets oid_signed_data ++ put_tlv 2 true 0 (put_tlv 0 true 16 (signed_body o content cert ski sig made_attrs)))) as L1.
    rewrite app_length in L1.
    pose proof (put_tlv_length 2 true 0 (put_tlv 0 true 16 (signed_body o content cert ski sig made_attrs))) as L2.
    pose proof (put_tlv_length 0 true 16 (signed_body o content cert ski sig made_attrs)) as L3.
    assert (length (r_full (encap_raw o content)) <= length (signed_body o content cert ski sig made_attrs))%nat.
    { unfold signed_body. rewrite !app_length. lia. }
    lia.
  Qed.
  Lemma lens_inner : Z.of_nat (length made_octets) < 2 ^ 31 -> Z.of_nat (length (put_tlv 2 true 0 (inner_tlv content))) < 2 ^ 31.
  Proof using All.
    intros L. pose proof (lens_encap L) as L1. cbn [encap_raw tlv_raw r_full] in L1.
    pose proof (put_tlv_length 0 true 16 (oid_octets o ++ put_tlv 2 true 0 (inner_tlv content))) as L2. rewrite app_length in L2. lia.
  Qed.

  (** EncodeCMS, Sign and Marshal, step by step *)
  Lemma made_steps : exists e c c',
    econtent o content = Some e /\ encode_cms cert e time = Some c /\
    (grouped content = Some (content, false) -> Z.of_nat (length made_octets) < 2 ^ 31 ->
     to_encap (r_full (en_content e)) false = Some content) /\
    (Z.of_nat (length made_octets) < 2 ^ 31 -> to_encap (r_full (en_content e)) true = Some content) /\
    sign sha256 rsa_sign c ski content cert = Ret (Some c') /\ marshal_cms c' = Some made_octets.
  Proof using All.
    destruct (time_octets time Htime) as (Mt & Ht & Lt).
    set (ec := raw_full (put_tlv 2 true 0 (inner_tlv content))).
    exists (mkEncap o ec).
    assert (Me : marshal t_encap (v_encap (mkEncap o ec)) = Some (r_full (encap_raw o content))).
    { apply struct_octets. cbn [en_oid en_content make_fields]. rewrite make_oid by exact Ho.
      rewrite (raw_made (p_opt_wrapped 0) ec 2 true 0 (inner_tlv content)) by reflexivity. now rewrite app_nil_r. }
    set (attrs0 := [mkAttribute oid_content_type [raw_full (oid_octets o)];
                    mkAttribute oid_signing_time [raw_full (put_tlv 0 false (fst (time_tlv time)) (snd (time_tlv time)))]]).
    set (c0 := mkCO oid_signed_data
      (mkSD 3 [raw_full (put_tlv 0 true 16 (oid_octets oid_sha256))] (raw_full (r_full (encap_raw o content)))
        (raw_full (put_tlv 2 false 0 cert)) raw0
        [mkSI 3 raw0 [raw_full (oid_octets oid_sha256)] attrs0 (raw_full (r_full alg_raw)) [] raw0])).
    set (attrs1 := attrs0 ++ [mkAttribute oid_digest [raw_full (put_tlv 0 false 4 (sha256 content))]]).
    assert (A1 : Forall (fun a => oid_fits (at_type a) /\ Forall (fun r => r_full r <> []) (at_values a)) attrs1).
    { assert (OK : forall ty c k t b, oid_fits ty ->
         oid_fits (at_type (mkAttribute ty [raw_full (put_tlv c k t b)])) /\
         Forall (fun r => r_full r <> []) (at_values (mkAttribute ty [raw_full (put_tlv c k t b)]))).
      { intros ty c k t b H. split; [exact H|]. constructor; [|constructor]. exact (tlv_full_ne c k t b). }
      unfold attrs1, attrs0, oid_octets. cbn [app].
      constructor; [|constructor; [|constructor; [|constructor]]]; apply OK; split; try reflexivity; left; lia. }
    exists c0.
    exists (object_with sig (raw_full (put_tlv 0 true 16 (oid_octets oid_sha256))) (raw_full (r_full (encap_raw o content)))
       (raw_full (put_tlv 2 true 0 cert)) (raw_full (put_tlv 2 false 0 ski)) (raw_full (oid_octets oid_sha256))
       (raw_full (r_full alg_raw)) attrs1).
    split; [reflexivity|].
    assert (TE : Z.of_nat (length made_octets) < 2 ^ 31 -> forall skip,
              to_encap (r_full ec) skip = if skip then Some content else opt_map fst (grouped content)).
    { intros Li skip. unfold to_encap. change (r_full ec) with (put_tlv 2 true 0 (inner_tlv content)).
      pose proof (lens_inner Li) as LI.
      assert (L2 : Z.of_nat (length (inner_tlv content)) < 2 ^ 31) by (pose proof (put_tlv_length 2 true 0 (inner_tlv content)); lia).
      unfold read_as. rewrite raw_reader. pose proof (tlv_raw_parsed 2 true 0 (inner_tlv content) [] ltac:(lia) ltac:(lia) ltac:(lia)) as P1.
      rewrite app_nil_r in P1. rewrite P1. cbn [opt_map raw_of bindopt fst snd tlv_raw r_bytes].
      rewrite raw_reader. pose proof (tlv_raw_parsed 0 false 4 content [] ltac:(lia) ltac:(lia) L2) as P2.
      rewrite app_nil_r in P2. unfold inner_tlv. rewrite P2. cbn [opt_map raw_of bindopt fst snd tlv_raw r_bytes].
      reflexivity. }
    split; [|split; [|split; [|split]]].
    - unfold encode_cms. rewrite Me. cbn [bindopt].
      change (make_field GOctets (p_tagged 0) (VOctets cert)) with (Some (put_tlv 2 false 0 cert)). cbn [bindopt].
      rewrite (struct_octets _ _ (oid_octets oid_sha256)).
      2:{ cbn [make_fields]. rewrite make_oid by (split; [right; lia|reflexivity]). now rewrite app_nil_r. }
      cbn [bindopt]. rewrite make_oid_marshal by (split; [right; lia|reflexivity]). cbn [bindopt en_oid].
      rewrite make_oid_marshal by exact Ho. cbn [bindopt]. rewrite Mt. cbn [bindopt].
      unfold t_sig_inner. rewrite (struct_octets _ _ (oid_octets oid_rsa ++ null_octets)).
      2:{ cbn [make_fields]. rewrite make_oid by (split; [left; lia|reflexivity]).
          rewrite (raw_made p0 (raw_full null_octets) 0 false 5 []) by reflexivity. now rewrite app_nil_r. }
      cbn [bindopt]. reflexivity.
    - intros G Li. cbn [en_content]. rewrite (TE Li false), G. reflexivity.
    - intros Li. exact (TE Li true).
    - unfold sign. change (sd_signers (co_data c0)) with [mkSI 3 raw0 [raw_full (oid_octets oid_sha256)] attrs0 (raw_full (r_full alg_raw)) [] raw0].
      cbv iota. cbn [sg_attrs].
      change (odefault [] (marshal GOctets (VOctets (sha256 content)))) with (put_tlv 0 false 4 (sha256 content)).
      fold attrs1.
      assert (B1 : map attr_bytes attrs1 = map attr_bytes made_attrs) by reflexivity.
      unfold t_sad. rewrite (struct_octets _ _ to_sign).
      2:{ cbn [make_fields]. rewrite (set_octets_of _ _ (map attr_bytes attrs1)).
          - rewrite B1. now rewrite app_nil_r.
          - rewrite map_map. apply all_some_map. intros a Ha. rewrite Forall_forall in A1. apply make_attr; apply A1, Ha. }
      cbn [bindopt]. pose proof to_sign_short as TS.
      destruct (length (put_tlv 0 true 16 to_sign) <? 2)%nat eqn:E; [rewrite put_tlv_short in E by lia; lia|].
      rewrite put_tlv_skip by lia. rewrite digest_octets_info by apply sha_octets. cbn [bindopt].
      rewrite Hsig. cbn [bindopt].
      assert (Ms : make_field GOctets (p_opt_tag 0) (VOctets ski) = Some (put_tlv 2 false 0 ski)).
      { destruct ski; [congruence|reflexivity]. }
      rewrite Ms. cbn [bindopt].
      assert (Rc : read_as GRaw raw_of cert = Some (tlv_raw cert_class cert_cons cert_tag cert_body)).
      { unfold read_as. rewrite raw_reader.
        pose proof (tlv_raw_parsed cert_class cert_cons cert_tag cert_body [] Hcc Hct Hcert) as P. rewrite app_nil_r in P.
        unfold cert. rewrite P. reflexivity. }
      rewrite Rc. cbn [bindopt].
      assert (Mc : make_field (GSlice GRaw) (p_opt_tag 0) (v_raws [tlv_raw cert_class cert_cons cert_tag cert_body]) = Some (put_tlv 2 true 0 cert)).
      { rewrite make_field_eq. change (left_out (p_opt_tag 0) (v_raws [tlv_raw cert_class cert_cons cert_tag cert_body])) with false. cbv iota.
        cbn [v_raws map make_tag make_body universal p_opt_tag p_set all_some].
        rewrite make_raw by apply tlv_full_ne. cbn [opt_map concat]. rewrite app_nil_r. reflexivity. }
      rewrite Mc. cbn [bindopt]. reflexivity.
    - apply object_made; try reflexivity; try discriminate. exact A1.
  Qed.

  (** What the decoders find in the octets *)
  Lemma made_read : Z.of_nat (length made_octets) < 2 ^ 31 ->
    exists c, (forall rest, decode_cms (made_octets ++ rest) = Some c) /\
      inner_octets c = Some content /\ r_bytes (sd_certs (co_data c)) = cert /\
      get_signing_time c = Ret (Some time) /\
      (forall n p, 0 < n -> rsa_signs n (Zpos p) sig (sha256 to_sign) ->
         validate_obj sha256 c content (RSAPtr n (Zpos p)) = Ret true) /\
      (strict_ok true c = true <-> cert_algorithm cert = Some (r_full alg_raw)).
  Proof using All.
    intros L. pose proof (lens_inner L) as LI.
    destruct (object_read o content cert ski sig made_attrs Ho Hski made_good ltac:(discriminate) L) as (ats & P & R).
    exists (decoded o content cert ski sig ats). split; [exact R|].
    split; [|split; [|split; [|split]]].
    - unfold inner_octets.
      change (r_full (sd_encap (co_data (decoded o content cert ski sig ats)))) with (r_full (encap_raw o content)).
      assert (Fe : fits t_encap p0 (v_encap (mkEncap o (tlv_raw 2 true 0 (inner_tlv content))))).
      { apply fits_struct. split; [now apply pok_plain|]. cbn [en_oid en_content fits_fields]. rewrite left_out_p0.
        split; [split; [now apply pok_plain|exact Ho]|]. split; [|exact I].
        change (left_out (p_opt_wrapped 0) (VRaw (tlv_raw 2 true 0 (inner_tlv content)))) with false. cbv iota.
        split; [split; [cbn; lia|split; [discriminate|exact I]]|]. split; [apply tlv_full_ne|]. split.
        - intros r. cbn [tlv_raw r_full r_class r_cons r_tag r_bytes].
          apply tlv_read; [lia|lia|pose proof (put_tlv_length 2 true 0 (inner_tlv content)); lia].
        - split; [reflexivity|]. split; [reflexivity|]. intros _. split; [reflexivity|].
          destruct (put_tlv_cons 0 false 4 content) as (x & w & E). cbn [tlv_raw r_bytes]. unfold inner_tlv. rewrite E. discriminate. }
      rewrite <- (app_nil_r (r_full (encap_raw o content))).
      rewrite (read_back _ t_encap encap_of (v_encap (mkEncap o (tlv_raw 2 true 0 (inner_tlv content)))) (r_full (encap_raw o content)) (mkEncap o (tlv_raw 2 true 0 (inner_tlv content))) [] Fe).
      + cbn [bindopt en_content]. unfold read_as. rewrite raw_reader.
        change (r_bytes (tlv_raw 2 true 0 (inner_tlv content))) with (put_tlv 0 false 4 content).
        pose proof (put_tlv_length 2 true 0 (inner_tlv content)) as L2.
        pose proof (tlv_raw_parsed 0 false 4 content [] ltac:(lia) ltac:(lia)) as P2. rewrite app_nil_r in P2.
        rewrite P2 by (unfold inner_tlv in *; lia). reflexivity.
      + apply struct_octets. cbn [en_oid en_content make_fields]. rewrite make_oid by exact Ho.
        rewrite (raw_made (p_opt_wrapped 0) (tlv_raw 2 true 0 (inner_tlv content)) 2 true 0 (inner_tlv content)) by reflexivity. now rewrite app_nil_r.
      + now apply lens_encap.
      + reflexivity.
    - reflexivity.
    - cbn [decoded object_with get_signing_time co_data sd_signers sg_attrs]. f_equal.
      assert (G : forall l, incl l made_attrs -> In (nth 1 made_attrs (mkAttribute [] [])) l -> signing_time_attr l = Some time).
      { induction l as [|a l IH]; intros Hi Hin; [contradiction|]. cbn [signing_time_attr].
        assert (Ha : In a made_attrs) by (apply Hi; now left).
        destruct Ha as [<-|[<-|[<-|[]]]].
        - cbn [at_type]. change (oid_eqb oid_content_type oid_signing_time) with false. cbv iota. apply IH.
          + intros x Hx. apply Hi. now right.
          + destruct Hin as [Hin|Hin]; [discriminate|exact Hin].
        - cbn [at_type at_values]. change (oid_eqb oid_signing_time oid_signing_time) with true. cbv iota.
          destruct (time_octets time Htime) as (Mt & Ht & Lt).
          change (r_full (tlv_raw 0 false (fst (time_tlv time)) (snd (time_tlv time))))
            with (put_tlv 0 false (fst (time_tlv time)) (snd (time_tlv time))).
          rewrite <- (app_nil_r (put_tlv _ _ _ _)).
          apply (read_back _ GTime _ (VTime time)); [|exact Mt| |reflexivity].
          + split; [split; [reflexivity|split; [discriminate|reflexivity]]|exact Htime].
          + rewrite put_tlv_short by lia. lia.
        - cbn [at_type]. change (oid_eqb oid_digest oid_signing_time) with false. cbv iota. apply IH.
          + intros x Hx. apply Hi. now right.
          + destruct Hin as [Hin|Hin]; [discriminate|exact Hin]. }
      apply G.
      + intros x Hx. eapply Permutation_in; [symmetry; exact P|exact Hx].
      + eapply Permutation_in; [exact P|]. right. now left.
    - intros n p Hn Hr. unfold validate_obj.
      rewrite (validate_complete sha256 set_octets sha_octets (cms_view (decoded o content cert ski sig ats))
                 (mkSigner (map attr_view ats) (r_full alg_raw) sig) [] n p to_sign content);
        [reflexivity|reflexivity|exact Hn| | |pose proof to_sign_short; lia|exact Hr].
      + cbn [si_attrs].
        assert (Hin : In (mkAttribute oid_digest [tlv_raw 0 false 4 (sha256 content)]) ats).
        { eapply Permutation_in; [exact P|]. right. right. now left. }
        destruct (in_split _ _ Hin) as (pre & post & E). subst ats.
        assert (Q : Permutation [nth 0 made_attrs (mkAttribute [] []); nth 1 made_attrs (mkAttribute [] [])] (pre ++ post)).
        { apply (Permutation_app_inv [nth 0 made_attrs (mkAttribute [] []); nth 1 made_attrs (mkAttribute [] [])] [] pre post
                   (mkAttribute oid_digest [tlv_raw 0 false 4 (sha256 content)])). exact P. }
        exists (map attr_view pre), (attr_view (mkAttribute oid_digest [tlv_raw 0 false 4 (sha256 content)])), (map attr_view post).
        split; [now rewrite map_app|]. split; [split; [reflexivity|eexists; reflexivity]|].
        intros b w Hb [Ct _]. apply in_map_iff in Hb. destruct Hb as (a & <- & Ha).
        assert (Ia : In a [nth 0 made_attrs (mkAttribute [] []); nth 1 made_attrs (mkAttribute [] [])]).
        { eapply Permutation_in; [symmetry; exact Q|]. apply in_or_app. now right. }
        destruct Ia as [<-|[<-|[]]]; vm_compute in Ct; discriminate.
      + cbn [si_attrs]. unfold set_octets, to_sign. rewrite map_map. do 3 f_equal.
        rewrite (map_ext (fun x => attr_octets (attr_view x)) attr_bytes) by apply attr_view_octets.
        apply sort_permuted. apply Permutation_map. symmetry. exact P.
    - unfold strict_ok, check_signatures_match.
      change (c_certs (cms_view (decoded o content cert ski sig ats))) with cert.
      change (c_signers (cms_view (decoded o content cert ski sig ats))) with [mkSigner (map attr_view ats) (r_full alg_raw) sig].
      cbn [si_alg]. split.
      + destruct (cert_algorithm cert) as [ca|]; [|discriminate].
        destruct (parse_raws ca) as [[|r0 rs]|]; try discriminate.
        destruct (negb (r_tag (last rs r0) =? 5)); [discriminate|].
        destruct (parse_raws (r_full alg_raw)); [|discriminate].
        destruct (beq ca (r_full alg_raw)) eqn:B; [|discriminate]. intros _. f_equal. now apply beq_eq.
      + intros ->. vm_compute. reflexivity.
  Qed.
End Made.
