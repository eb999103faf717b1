(** Octets written by the encoders of ROAs, manifests and extensions are read
    back by the decoders. *)
From Coq Require Import Lia Bool ZifyBool ZifyNat.
From Verif.Model Require Import Base Str NetIP CertRes Roa Ber Asn1 GoTime Der Tal Cms Validator ObjDer.
From Verif.Spec Require Import Addr Resources Bits Canon ObjSpec.
From Verif.Proofs Require Import NetIPProofs DerPrim DerProofs CertProofs EncodeProofs RoaProofs.
Ltac Zify.zify_post_hook ::= Z.div_mod_to_equations.

(** ** Bit strings *)
Lemma addr_val_last : forall l p, 0 <= p < 8 -> l <> [] -> addr_val l mod 2 ^ p = last l 0 mod 2 ^ p.
Proof.
  intros l p Hp Hl. destruct (exists_last Hl) as (l' & x & ->). rewrite last_last.
  unfold addr_val. rewrite fold_left_app. cbn [fold_left]. set (a := fold_left _ l' 0).
  replace (a * 256 + x) with (x + a * 2 ^ (8 - p) * 2 ^ p).
  - apply Z_mod_plus_full.
  - rewrite <- Z.mul_assoc, <- Z.pow_add_r by lia. replace (8 - p + p) with 8 by lia. change (2 ^ 8) with 256. lia.
Qed.

Lemma land_low : forall x p, 0 <= p -> Z.land x (2 ^ p - 1) = x mod 2 ^ p.
Proof.
  intros x p H. rewrite <- Z.land_ones by assumption. rewrite Z.ones_equiv. f_equal.
Qed.

(** The significant octets of a bit string as the encoder needs them *)
Lemma wf_bits_fit : forall b, wf_bits b -> bits_fit b.
Proof.
  intros [bs n] (_ & H0 & Hl & Hm). cbn [bs_bytes bs_len] in *. unfold bits_fit. cbn [bs_bytes bs_len].
  split; [exact H0|]. split; [lia|].
  set (p := (8 - n mod 8) mod 8). assert (P : 0 <= p < 8) by (subst p; lia).
  rewrite land_low by lia. destruct bs as [|x bs]; [apply Z.mod_0_l; apply Z.pow_nonzero; lia|].
  rewrite <- addr_val_last by (lia || discriminate). rewrite <- Hm. f_equal. f_equal. subst p. lia.
Qed.

(** ... and the bit strings Unmarshal delivers. *)
Lemma fit_bits_wf : forall b, bytes_ok (bs_bytes b) = true -> bits_fit b -> wf_bits b.
Proof.
  intros [bs n] O (H0 & Hl & Hz). cbn [bs_bytes bs_len] in *. unfold wf_bits. cbn [bs_bytes bs_len].
  split; [exact O|]. split; [exact H0|]. split; [lia|].
  set (p := (8 - n mod 8) mod 8) in *. assert (P : 0 <= p < 8) by (subst p; lia).
  replace (8 * Z.of_nat (length bs) - n) with p by (subst p; lia).
  destruct bs as [|x bs]; [apply Z.mod_0_l; apply Z.pow_nonzero; lia|].
  rewrite addr_val_last by (lia || discriminate). rewrite <- land_low by lia. exact Hz.
Qed.

Lemma parse_bitstring_fit : forall l b, bytes_ok l = true -> parse_bitstring l = Some b -> wf_bits b.
Proof.
  intros l b O H. unfold parse_bitstring in H. destruct l as [|p r]; [discriminate|].
  cbn [bytes_ok forallb] in O. apply andb_true_iff in O. destruct O as [Op Or]. unfold byte_ok in Op.
  destruct (_ || _) eqn:E in H; [discriminate|].
  assert (b = mkBits r (8 * Z.of_nat (length r) - p)) by congruence. subst b. clear H.
  apply orb_false_iff in E. destruct E as [E Ez]. apply orb_false_iff in E. destruct E as [Ep Er].
  apply fit_bits_wf; [exact Or|]. unfold bits_fit, bs_bytes, bs_len.
  assert (P : 0 <= p <= 7) by lia.
  destruct r as [|x r].
  - cbn beta iota in Er. assert (p = 0) by (clear - P Er; lia). subst p. cbn. split; [lia|]. split; reflexivity.
  - split; [cbn [length]; lia|]. split; [cbn [length]; lia|].
    replace ((8 - (8 * Z.of_nat (length (x :: r)) - p) mod 8) mod 8) with p by (cbn [length]; lia).
    apply negb_false_iff in Ez. apply Z.eqb_eq in Ez. exact Ez.
Qed.

(** ** Slices of values *)
Lemma map_opt_map : forall A B (f : B -> option A) (g : A -> B) l,
  (forall x, In x l -> f (g x) = Some x) -> map_opt f (map g l) = Some l.
Proof.
  induction l as [|x l IH]; intros H; [reflexivity|]. cbn [map map_opt].
  rewrite H by (now left). rewrite IH by (intros; apply H; now right). reflexivity.
Qed.

Lemma read_back : forall A t (f : govalue -> option A) v b a rest,
  fits t p0 v -> marshal t v = Some b -> Z.of_nat (length b) < 2 ^ 31 -> f v = Some a ->
  read_as t f (b ++ rest) = Some a.
Proof.
  intros. unfold read_as. rewrite (unmarshal_marshal t v b) by assumption. assumption.
Qed.

Ltac pok := split; [reflexivity || (cbn [p_tag]; lia)|split; [discriminate || (cbn [p_set]; discriminate)|exact I]].
Lemma pok_plain : forall t, match t with GString => False | GTime => False | _ => True end -> params_ok t p0.
Proof. intros t H. split; [reflexivity|]. split; [discriminate|]. destruct t; try exact I; contradiction. Qed.

(** ** ROAs *)
Definition addr_fits (a : roa_addr) : Prop := wf_bits (ra_bits a) /\ int64 (ra_maxlen a).

Lemma roa_addr_fit : forall a, addr_fits a -> fits t_roa_addr p0 (v_roa_addr a).
Proof.
  intros a [B M]. apply fits_struct. split; [now apply pok_plain|].
  cbn [fits_fields]. rewrite left_out_p0. split.
  - split; [now apply pok_plain|]. now apply wf_bits_fit.
  - split; [|exact I]. destruct (left_out p_minus1 (VInt (ra_maxlen a))) eqn:L.
    + unfold left_out in L. cbn in L. apply Z.eqb_eq in L. rewrite L. split; [reflexivity|exact I].
    + split; [pok|exact M].
Qed.

Lemma roa_family_fit : forall f, Forall addr_fits (snd f) -> fits t_roa_family p0 (v_roa_family f).
Proof.
  intros f H. apply fits_struct. split; [now apply pok_plain|].
  cbn [fits_fields]. rewrite !left_out_p0. split; [split; [now apply pok_plain|exact I]|]. split; [|exact I].
  apply fits_slice. split; [now apply pok_plain|]. split; [|discriminate].
  apply Forall_map. eapply Forall_impl; [|exact H]. exact roa_addr_fit.
Qed.

Lemma roa_content_fit : forall asn l, int64 asn -> Forall (fun f => Forall addr_fits (snd f)) l ->
  fits t_roa_content p0 (v_roa_content asn l).
Proof.
  intros asn l A H. apply fits_struct. split; [now apply pok_plain|].
  cbn [fits_fields]. rewrite !left_out_p0. split; [split; [now apply pok_plain|exact A]|]. split; [|exact I].
  apply fits_slice. split; [now apply pok_plain|]. split; [|discriminate].
  apply Forall_map. eapply Forall_impl; [|exact H]. exact roa_family_fit.
Qed.

Lemma roa_content_of_v : forall asn l, roa_content_of (v_roa_content asn l) = Some (asn, l).
Proof.
  intros asn l. unfold v_roa_content. cbn [roa_content_of slice_of].
  rewrite map_opt_map; [reflexivity|]. intros [f as'] _. unfold v_roa_family. cbn [fst snd roa_family_of slice_of].
  rewrite map_opt_map; [reflexivity|]. intros [b m] _. reflexivity.
Qed.

Lemma roa_octets_back : forall asn l, int64 asn -> Forall (fun f => Forall addr_fits (snd f)) l ->
  exists b, marshal t_roa_content (v_roa_content asn l) = Some b /\
    (Z.of_nat (length b) < 2 ^ 31 -> forall rest,
       read_as t_roa_content roa_content_of (b ++ rest) = Some (asn, l)).
Proof.
  intros asn l A H. pose proof (roa_content_fit asn l A H) as F.
  destruct (fits_make _ _ _ F) as (b & E). exists b. split; [exact E|]. intros L rest.
  eapply read_back; eauto. apply roa_content_of_v.
Qed.

(** What EncodeROAEntries makes of canonical entries is well formed. *)
Lemma encode_addrs_fit : forall l a, Forall (fun e => (exists m, canonical_entry e m) /\ re_maxlen e < 2 ^ 63) l ->
  encode_addrs l = Ret a -> Forall addr_fits a.
Proof.
  induction l as [|e l IH]; intros a H E; cbn [encode_addrs] in E.
  - injection E as <-. constructor.
  - inversion H as [|? ? [(m & ip & p & Ee & Lm & P & Hp & Hh & Hm) Hx] Hl]; subst.
    destruct (ipnet_to_bits_spec ip p P Hp Hh) as (b & E0 & _ & W & _).
    rewrite Ee, E0 in E. cbn [gbind] in E. destruct (encode_addrs l) as [a'|]; [|discriminate]. cbn [gbind] in E.
    injection E as <-. constructor; [|now apply IH]. split; [exact W|]. unfold int64. cbn [ra_maxlen]. lia.
Qed.


Notation roa_ok := entries_ok.
Lemma roa_ok_canonical : forall l, roa_ok l -> Forall (fun e => exists m, canonical_entry e m) l.
Proof. intros l H. eapply Forall_impl; [|exact H]. now intros ? []. Qed.

Lemma encode_group_fit : forall f l b, roa_ok l ->
  encode_group f l = Ret b -> Forall (fun f => Forall addr_fits (snd f)) b.
Proof.
  intros f l b H E. unfold encode_group in E.
  assert (F : roa_ok (filter (fun e => entry_afi e =? f) l)).
  { apply Forall_forall. intros e He. apply filter_In in He. unfold roa_ok in H. rewrite Forall_forall in H.
    now apply H. }
  destruct (filter _ l) as [|e g]; [injection E as <-; constructor|].
  destruct (encode_addrs (e :: g)) as [a|] eqn:Ea; [|discriminate]. cbn [gbind] in E. injection E as <-.
  constructor; [|constructor]. cbn [snd]. eapply encode_addrs_fit; eauto.
Qed.

Lemma encode_roa_fit : forall l b, roa_ok l -> encode_roa_entries l = Ret b ->
  Forall (fun f => Forall addr_fits (snd f)) b.
Proof.
  intros l b H E. unfold encode_roa_entries in E.
  destruct (encode_group 1 l) as [a|] eqn:E1; [|discriminate]. cbn [gbind] in E.
  destruct (encode_group 2 l) as [c|] eqn:E2; [|discriminate]. cbn [gbind] in E. injection E as <-.
  apply Forall_app. split; eapply encode_group_fit; eauto.
Qed.

Lemma roa_entries_octets : forall asn l, roa_ok l -> int64 asn ->
  exists blocks b, encode_roa_entries l = Ret blocks /\
    marshal t_roa_content (v_roa_content asn blocks) = Some b /\
    convert_entries blocks = Some (filter (fun e => Nat.eqb (length (nip (re_net e))) 4) l ++
                                   filter (fun e => Nat.eqb (length (nip (re_net e))) 16) l) /\
    (Z.of_nat (length b) < 2 ^ 31 -> forall rest,
       read_as t_roa_content roa_content_of (b ++ rest) = Some (asn, blocks)).
Proof.
  intros asn l H A. destruct (encode_convert_entries l (roa_ok_canonical l H)) as (blocks & E & C).
  destruct (roa_octets_back asn blocks A (encode_roa_fit l blocks H E)) as (b & M & R).
  exists blocks, b. auto.
Qed.

(** ** Values given by their octets *)
Definition tlv_raw (c : Z) (cons : bool) (tag : Z) (b : bytes) : raw :=
  mkRaw c cons tag b (put_tlv c cons tag b).

Lemma tlv_full_ne : forall c cons tag b, r_full (tlv_raw c cons tag b) <> [].
Proof. intros. cbn [tlv_raw r_full]. destruct (put_tlv_cons c cons tag b) as (x & l & ->). discriminate. Qed.

Lemma tlv_raw_fits : forall c cons tag b, 0 <= c < 4 -> 0 <= tag < 31 -> Z.of_nat (length b) < 2 ^ 31 ->
  fits GRaw p0 (VRaw (tlv_raw c cons tag b)).
Proof.
  intros c cons tag b Hc Ht Hl. split; [now apply pok_plain|]. split; [apply tlv_full_ne|].
  split; [|exact I]. intros rest. cbn [tlv_raw r_full r_class r_cons r_tag r_bytes]. now apply tlv_read.
Qed.

Lemma make_raw_full : forall p b, b <> [] -> make_field GRaw p (VRaw (raw_full b)) = Some b.
Proof.
  intros p b H. rewrite make_field_eq. unfold left_out, is_zero, raw_zero, raw_full. cbn [r_full r_class r_cons r_tag r_bytes].
  destruct b as [|x b]; [congruence|]. rewrite !andb_false_r. cbn [orb]. destruct (p_default p); rewrite andb_false_r; reflexivity.
Qed.

Lemma make_raw : forall r, r_full r <> [] -> make_field GRaw p0 (VRaw r) = Some (r_full r).
Proof. intros r H. rewrite make_field_eq, left_out_p0. destruct (r_full r); congruence. Qed.

Lemma all_some_map : forall A B (f : A -> option B) g l, (forall x, In x l -> f x = Some (g x)) ->
  all_some (map f l) = Some (map g l).
Proof.
  induction l as [|x l IH]; intros H; [reflexivity|]. cbn [map all_some]. rewrite H by (now left).
  rewrite IH by (intros; apply H; now right). reflexivity.
Qed.
Lemma map_opt_all : forall A B (f : A -> option B) g l, (forall x, In x l -> f x = Some (g x)) ->
  map_opt f l = Some (map g l).
Proof.
  induction l as [|x l IH]; intros H; [reflexivity|]. cbn [map map_opt]. rewrite H by (now left).
  rewrite IH by (intros; apply H; now right). reflexivity.
Qed.

(** A slice is a SEQUENCE of its elements. *)
Lemma slice_octets : forall t l bs, all_some (map (make_field t p0) l) = Some bs ->
  marshal (GSlice t) (VSlice l) = Some (put_tlv 0 true 16 (concat bs)).
Proof.
  intros t l bs H. unfold marshal. rewrite make_field_eq, left_out_p0. cbn [make_tag universal make_body p0 p_set].
  rewrite H. cbn [opt_map]. unfold wrap, is_cons. cbn [p0 p_tag universal]. reflexivity.
Qed.

Lemma marshal_raws_eq : forall l, Forall (fun b => b <> []) l ->
  marshal_raws l = Some (put_tlv 0 true 16 (concat l)).
Proof.
  intros l H. unfold marshal_raws, v_raws. rewrite map_map. apply slice_octets. rewrite map_map.
  rewrite (all_some_map _ _ _ (fun b => b)); [now rewrite map_id|].
  intros x Hx. apply make_raw_full. rewrite Forall_forall in H. now apply H.
Qed.

(** A struct is a SEQUENCE of its fields. *)
Lemma struct_octets : forall fs l b, make_fields fs l = Some b ->
  marshal (GStruct false fs) (VStruct [] l) = Some (put_tlv 0 true 16 b).
Proof.
  intros fs l b H. unfold marshal. rewrite make_field_eq, left_out_p0. cbn [make_tag universal make_body p0 p_set].
  rewrite H. unfold wrap, is_cons. cbn [p0 p_tag universal]. reflexivity.
Qed.

Lemma concat_in_length : forall (l : list bytes) b, In b l -> (length b <= length (concat l))%nat.
Proof.
  induction l as [|x l IH]; intros b H; [contradiction|]. cbn [concat]. rewrite app_length.
  destruct H as [->|H]; [lia|]. specialize (IH b H). lia.
Qed.

(** ** The IP address extension *)
Definition elem_ok (o : iporange) : Prop :=
  match o with OBits b => wf_bits b | ORange a b => wf_bits a /\ wf_bits b | _ => False end.
Definition bits_octets (b : bitstring) : bytes := put_tlv 0 false 3 (put_bits b).
Definition elem_raw (o : iporange) : raw :=
  match o with
  | OBits b => tlv_raw 0 false 3 (put_bits b)
  | ORange a b => tlv_raw 0 true 16 (bits_octets a ++ bits_octets b)
  | _ => raw0
  end.

Lemma make_bits : forall b, make_field GBits p0 (VBits b) = Some (bits_octets b).
Proof. intros b. reflexivity. Qed.

Lemma ip_elem_octets_eq : forall o, elem_ok o -> ip_elem_octets o = Some (r_full (elem_raw o)).
Proof.
  intros [b|a b| |] H; try contradiction; [reflexivity|]. cbn [ip_elem_octets elem_raw tlv_raw r_full].
  rewrite (slice_octets GBits _ [bits_octets a; bits_octets b]) by reflexivity. cbn [concat]. now rewrite app_nil_r.
Qed.

Lemma ip_elem_raw : forall o, elem_ok o -> Z.of_nat (length (r_full (elem_raw o))) < 2 ^ 31 -> ip_elem (elem_raw o) = o.
Proof.
  intros [b|a b| |] H L; try contradiction; unfold ip_elem; cbn [elem_raw tlv_raw r_tag r_full Z.eqb Pos.eqb] in *.
  - rewrite <- (app_nil_r (put_tlv _ _ _ _)).
    rewrite (read_back _ GBits _ (VBits b) _ b); auto.
    split; [now apply pok_plain|now apply wf_bits_fit].
  - rewrite <- (app_nil_r (put_tlv _ _ _ _)).
    rewrite (read_back _ t_addr_range _ (VStruct [] [VBits a; VBits b]) _ (a, b)); auto.
    + destruct H. apply fits_struct. split; [now apply pok_plain|]. cbn [fits_fields]. rewrite !left_out_p0.
      split; [split; [now apply pok_plain|now apply wf_bits_fit]|].
      split; [split; [now apply pok_plain|now apply wf_bits_fit]|]. exact I.
    + unfold t_addr_range. rewrite (struct_octets _ _ (bits_octets a ++ bits_octets b)); [reflexivity|].
      cbn [make_fields]. rewrite !make_bits. now rewrite app_nil_r.
Qed.

Definition choice_ok (c : ipchoice) : Prop :=
  match c with ChInherit => True | ChSeq l => Forall elem_ok l | _ => False end.
Definition choice_raw (c : ipchoice) : raw :=
  match c with
  | ChInherit => tlv_raw 0 false 5 []
  | ChSeq l => tlv_raw 0 true 16 (concat (map (fun o => r_full (elem_raw o)) l))
  | _ => raw0
  end.
Definition v_ip_family (f : bytes * ipchoice) : govalue := VStruct [] [VOctets (fst f); VRaw (choice_raw (snd f))].
Definition family_octets (f : bytes * ipchoice) : bytes :=
  put_tlv 0 true 16 (put_tlv 0 false 4 (fst f) ++ r_full (choice_raw (snd f))).

Lemma elem_full_ne : forall o, elem_ok o -> r_full (elem_raw o) <> [].
Proof. intros [b|a b| |] H; try contradiction; apply tlv_full_ne. Qed.
Lemma choice_full_ne : forall c, choice_ok c -> r_full (choice_raw c) <> [].
Proof. intros [| l| |] H; try contradiction; apply tlv_full_ne. Qed.

Lemma v_ip_family_octets : forall f, choice_ok (snd f) -> marshal t_ip_family (v_ip_family f) = Some (family_octets f).
Proof.
  intros f H. unfold t_ip_family, v_ip_family.
  rewrite (struct_octets _ _ (put_tlv 0 false 4 (fst f) ++ r_full (choice_raw (snd f)))); [reflexivity|].
  cbn [make_fields]. rewrite make_raw by (now apply choice_full_ne). now rewrite app_nil_r.
Qed.

Lemma ip_family_octets_eq : forall f, choice_ok (snd f) -> ip_family_octets f = Some (family_octets f).
Proof.
  intros [f c] H. cbn [snd] in H. unfold ip_family_octets. cbn [fst snd]. destruct c as [|l| |]; try contradiction.
  - reflexivity.
  - cbn [choice_ok] in H. rewrite Forall_forall in H.
    rewrite (map_opt_all _ _ _ (fun o => r_full (elem_raw o))) by (intros; apply ip_elem_octets_eq; auto).
    cbn [bindopt].
    assert (X : make_field (GSlice GRaw) p0 (v_raws (map raw_full (map (fun o => r_full (elem_raw o)) l)))
       = Some (put_tlv 0 true 16 (concat (map (fun o => r_full (elem_raw o)) l)))).
    { apply marshal_raws_eq. apply Forall_map, Forall_forall. intros o Ho. apply elem_full_ne. auto. }
    rewrite (struct_octets _ _ (put_tlv 0 false 4 f ++ put_tlv 0 true 16 (concat (map (fun o => r_full (elem_raw o)) l))));
      [reflexivity|].
    cbn [make_fields]. rewrite X. now rewrite app_nil_r.
Qed.

Lemma choice_read : forall c, choice_ok c -> Z.of_nat (length (r_full (choice_raw c))) < 2 ^ 31 ->
  ip_choice (choice_raw c) = c.
Proof.
  intros c H L. destruct c as [|l| |]; try contradiction; [reflexivity|].
  unfold ip_choice. cbn [choice_raw tlv_raw r_tag r_full Z.eqb Pos.eqb] in *. cbn [choice_ok] in H. rewrite Forall_forall in H.
  set (rs := map elem_raw l).
  assert (E : map (fun o => r_full (elem_raw o)) l = map r_full rs) by (unfold rs; now rewrite map_map).
  rewrite E in *. 
  assert (B : forall o, In o l -> Z.of_nat (length (r_full (elem_raw o))) < 2 ^ 31).
  { intros o Ho. pose proof (put_tlv_length 0 true 16 (concat (map r_full rs))).
    assert (In (r_full (elem_raw o)) (map r_full rs)) by (unfold rs; rewrite map_map; apply in_map_iff; eauto).
    pose proof (concat_in_length (map r_full rs) (r_full (elem_raw o)) ltac:(assumption)). lia. }
  rewrite <- (app_nil_r (put_tlv _ _ _ _)).
  rewrite (read_back _ (GSlice GRaw) _ (v_raws rs) _ rs).
  - f_equal. unfold rs. rewrite map_map. rewrite <- (map_id l) at 2. apply map_ext_in. intros o Ho.
    apply ip_elem_raw; auto.
  - apply fits_slice. split; [now apply pok_plain|]. split; [|discriminate].
    apply Forall_map, Forall_forall. intros r Hr. unfold rs in Hr. apply in_map_iff in Hr. destruct Hr as (o & <- & Ho).
    specialize (B o Ho). specialize (H o Ho).
    destruct o as [b|a b| |]; try contradiction; cbn [elem_raw tlv_raw r_full] in *; apply tlv_raw_fits; try lia;
     match goal with |- context [put_bits] => idtac | _ => idtac end;
     match type of B with Z.of_nat (length (put_tlv ?c ?k ?t ?x)) < _ => pose proof (put_tlv_length c k t x); lia end.
  - unfold v_raws. rewrite (slice_octets _ _ (map r_full rs)); [reflexivity|]. rewrite map_map.
    apply all_some_map. intros r Hr. apply make_raw. unfold rs in Hr. apply in_map_iff in Hr. destruct Hr as (o & <- & Ho).
    apply elem_full_ne. auto.
  - exact L.
  - cbn [v_raws slice_of]. now apply map_opt_map.
Qed.

Lemma ip_family_fits : forall f, choice_ok (snd f) -> Z.of_nat (length (family_octets f)) < 2 ^ 31 ->
  fits t_ip_family p0 (v_ip_family f) /\ ip_family_of (v_ip_family f) = Some f.
Proof.
  intros [f c] H L. cbn [snd] in H. unfold family_octets in L. cbn [fst snd] in L.
  pose proof (put_tlv_length 0 true 16 (put_tlv 0 false 4 f ++ r_full (choice_raw c))) as L1.
  rewrite app_length in L1.
  assert (B : Z.of_nat (length (r_full (choice_raw c))) < 2 ^ 31) by lia.
  split.
  - unfold v_ip_family. cbn [fst snd]. apply fits_struct. split; [now apply pok_plain|]. cbn [fits_fields].
    rewrite !left_out_p0. split; [split; [now apply pok_plain|exact I]|]. split; [|exact I].
    destruct c as [|l| |]; try contradiction; cbn [choice_raw tlv_raw r_full] in *; apply tlv_raw_fits; try lia;
    match type of B with Z.of_nat (length (put_tlv ?c ?k ?t ?x)) < _ => pose proof (put_tlv_length c k t x); lia end.
  - cbn [v_ip_family fst snd ip_family_of]. now rewrite choice_read.
Qed.

Lemma ip_blocks_octets : forall blk, Forall (fun f => choice_ok (snd f)) blk ->
  exists b, bindopt (map_opt ip_family_octets blk) marshal_raws = Some b /\
   (Z.of_nat (length b) < 2 ^ 31 -> forall rest,
      read_as (GSlice t_ip_family) (slice_of ip_family_of) (b ++ rest) = Some blk).
Proof.
  intros blk H. rewrite Forall_forall in H.
  exists (put_tlv 0 true 16 (concat (map family_octets blk))). split.
  - rewrite (map_opt_all _ _ _ family_octets) by (intros; apply ip_family_octets_eq; auto).
    cbn [bindopt]. apply marshal_raws_eq. apply Forall_map, Forall_forall. intros f _. unfold family_octets.
    destruct (put_tlv_cons 0 true 16 (put_tlv 0 false 4 (fst f) ++ r_full (choice_raw (snd f)))) as (x & l & ->).
    discriminate.
  - intros L rest.
    assert (B : forall f, In f blk -> Z.of_nat (length (family_octets f)) < 2 ^ 31).
    { intros f Hf. pose proof (put_tlv_length 0 true 16 (concat (map family_octets blk))).
      pose proof (concat_in_length (map family_octets blk) (family_octets f) ltac:(now apply in_map)). lia. }
    apply (read_back _ _ _ (VSlice (map v_ip_family blk))).
    + apply fits_slice. split; [now apply pok_plain|]. split; [|discriminate].
      apply Forall_map, Forall_forall. intros f Hf. apply ip_family_fits; auto.
    + apply slice_octets. rewrite map_map. apply all_some_map. intros f Hf.
      apply (v_ip_family_octets f). auto.
    + exact L.
    + cbn [slice_of]. apply map_opt_map. intros f Hf. apply ip_family_fits; auto.
Qed.

(** What EncodeIPAddressBlock makes of canonical elements is well formed. *)
Lemma wf_bits_16 : forall a, bytes_ok a = true -> length a = 16%nat -> wf_bits (mkBits a 128).
Proof.
  intros a O L. unfold wf_bits, bs_bytes, bs_len. rewrite L. split; [exact O|]. split; [lia|]. split; [lia|].
  change (2 ^ (8 * Z.of_nat 16 - 128)) with 1. apply Z.mod_1_r.
Qed.
Lemma canonical_elem_ok : forall i n, canonical i n -> forall o, ip_asn1 i = Ret (Some o) -> elem_ok o.
Proof.
  intros i n H o E. destruct H as [ip p P Hp Hh|mn mx P1 P2 L1 L2|f i Hi].
  - destruct (ipnet_to_bits_spec ip p P Hp Hh) as (b & Eb & _ & W & _). cbn [ip_asn1] in E. rewrite Eb in E.
    cbn [gbind] in E. injection E as <-. exact W.
  - cbn [ip_asn1] in E. unfold ip_to_bits in E. destruct P1 as (O1 & _ & N1). destruct P2 as (O2 & _ & N2).
    rewrite !to4_not_mapped in E by assumption. cbn [gbind] in E. injection E as <-.
    split; now apply wf_bits_16.
  - destruct Hi; discriminate E.
Qed.

Lemma version_loop_ok : forall l acc c, all_canonical l -> Forall elem_ok acc ->
  encode_version_loop l acc = Ret c -> choice_ok c.
Proof.
  induction l as [|i l IH]; intros acc c H Ha E; cbn [encode_version_loop] in E.
  - injection E as <-. exact Ha.
  - inversion H as [|? ? (n & Hi) Hl]; subst. destruct (ip_asn1 i) as [[o|]|] eqn:Eo; cbn [gbind] in E; try discriminate.
    + eapply IH; [exact Hl| |exact E]. apply Forall_app. split; [exact Ha|].
      constructor; [|constructor]. eapply canonical_elem_ok; eauto.
    + injection E as <-. exact I.
Qed.

Lemma encode_families_ok : forall fams l blk, all_canonical l -> encode_families fams l = Ret blk ->
  Forall (fun f => choice_ok (snd f)) blk.
Proof.
  induction fams as [|f fams IH]; intros l blk H E; cbn [encode_families] in E.
  - injection E as <-. constructor.
  - rewrite (group_family_spec l f H) in E. cbn [gbind] in E.
    set (g := filter _ l) in E.
    assert (G : all_canonical g).
    { apply Forall_forall. intros i Hi. apply filter_In in Hi. unfold all_canonical in H. rewrite Forall_forall in H. now apply H. }
    clearbody g. destruct g as [|i g]; [now apply (IH l)|].
    destruct (encode_version_loop (i :: g) []) as [c|] eqn:Ec; [|discriminate]. cbn [gbind] in E.
    destruct (encode_families fams l) as [r|] eqn:Er; [|discriminate]. cbn [gbind] in E. injection E as <-.
    constructor; [|now apply (IH l)]. cbn [snd]. eapply version_loop_ok; [exact G|constructor|exact Ec].
Qed.

Lemma encode_ip_block_ok : forall l blk, all_canonical l -> encode_ip_block l = Ret blk ->
  Forall (fun f => choice_ok (snd f)) blk.
Proof. intros l blk H. unfold encode_ip_block. generalize all_families. intros fams E. eapply encode_families_ok; eauto. Qed.

Lemma ip_ext_octets : forall l, all_canonical l ->
  exists b, encode_ip_ext l = Ret (Some b) /\
    (Z.of_nat (length b) < 2 ^ 31 -> forall rest,
       decode_ip_ext (b ++ rest) = (family_part 4 l ++ family_part 16 l, true)).
Proof.
  intros l H. destruct (encode_decode_ip_block l H) as (blk & E & D).
  destruct (ip_blocks_octets blk) as (b & Eb & R); [now apply (encode_ip_block_ok l)|].
  exists b. split.
  - unfold encode_ip_ext. rewrite E. cbn [gbind]. now rewrite Eb.
  - intros L rest. unfold decode_ip_ext. rewrite (R L rest). exact D.
Qed.

(** ** AS numbers *)
Definition as_ok (a : asinfo) : Prop :=
  match a with ASRange x y => int64 x /\ int64 y | ASNum x => int64 x | ASNull => True end.
Definition int_octets (n : Z) : bytes := put_tlv 0 false 2 (put_int n).
Definition as_raw (a : asinfo) : raw :=
  match a with
  | ASRange x y => tlv_raw 0 true 16 (int_octets x ++ int_octets y)
  | ASNum x => tlv_raw 0 false 2 (put_int x)
  | ASNull => tlv_raw 0 false 5 []
  end.
Definition as_elem_of (a : asinfo) : asraw :=
  match a with ASRange x y => RSeq x y | ASNum x => RInt x | ASNull => ROther end.

Lemma as_octets_eq : forall a, as_octets a = Some (r_full (as_raw a)).
Proof.
  intros [x y|x|]; try reflexivity. cbn [as_octets as_raw tlv_raw r_full].
  rewrite (slice_octets GInt _ [int_octets x; int_octets y]) by reflexivity. cbn [concat]. now rewrite app_nil_r.
Qed.
Lemma as_full_ne : forall a, r_full (as_raw a) <> [].
Proof. intros [x y|x|]; apply tlv_full_ne. Qed.

Lemma int_fits : forall n, int64 n -> fits GInt p0 (VInt n).
Proof. intros n H. split; [now apply pok_plain|exact H]. Qed.

Lemma as_elem_raw : forall a, as_ok a -> Z.of_nat (length (r_full (as_raw a))) < 2 ^ 31 ->
  as_elem (as_raw a) = as_elem_of a.
Proof.
  intros [x y|x|] H L; [| |reflexivity]; unfold as_elem; cbn [as_raw tlv_raw r_tag r_full Z.eqb Pos.eqb] in *;
    rewrite <- (app_nil_r (put_tlv _ _ _ _)).
  - rewrite (read_back _ t_as_range _ (VStruct [] [VInt x; VInt y]) _ (x, y)); auto.
    + destruct H. apply fits_struct. split; [now apply pok_plain|]. cbn [fits_fields]. rewrite !left_out_p0.
      split; [now apply int_fits|]. split; [now apply int_fits|]. exact I.
    + unfold t_as_range. rewrite (struct_octets _ _ (int_octets x ++ int_octets y)); [reflexivity|].
      cbn [make_fields]. change (make_field GInt p0 (VInt x)) with (Some (int_octets x)).
      change (make_field GInt p0 (VInt y)) with (Some (int_octets y)).
      cbv beta iota. now rewrite app_nil_r.
  - rewrite (read_back _ GInt _ (VInt x) _ x); auto. now apply int_fits.
Qed.

Lemma as_raw_fits : forall a, Z.of_nat (length (r_full (as_raw a))) < 2 ^ 31 -> fits GRaw p0 (VRaw (as_raw a)).
Proof.
  intros a B. destruct a as [x y|x|]; cbn [as_raw tlv_raw r_full] in *; apply tlv_raw_fits; try lia;
  match type of B with Z.of_nat (length (put_tlv ?c ?k ?t ?x)) < _ => pose proof (put_tlv_length c k t x); lia end.
Qed.

Lemma raws_slice_back : forall rs, Forall (fun r => fits GRaw p0 (VRaw r)) rs ->
  Z.of_nat (length (put_tlv 0 true 16 (concat (map r_full rs)))) < 2 ^ 31 ->
  forall rest, read_as (GSlice GRaw) (slice_of raw_of) (put_tlv 0 true 16 (concat (map r_full rs)) ++ rest) = Some rs.
Proof.
  intros rs H L rest. rewrite Forall_forall in H. apply (read_back _ _ _ (v_raws rs)).
  - apply fits_slice. split; [now apply pok_plain|]. split; [|discriminate].
    apply Forall_map, Forall_forall. auto.
  - unfold v_raws. apply slice_octets. rewrite map_map. apply all_some_map. intros r Hr. apply make_raw.
    now destruct (H r Hr) as (_ & N & _).
  - exact L.
  - cbn [v_raws slice_of]. now apply map_opt_map.
Qed.

Lemma raw_back : forall r, fits GRaw p0 (VRaw r) -> forall rest, Z.of_nat (length (r_full r)) < 2 ^ 31 ->
  read_as GRaw raw_of (r_full r ++ rest) = Some r.
Proof.
  intros r H rest L. apply (read_back _ _ _ (VRaw r)); auto. apply make_raw. now destruct H as (_ & N & _).
Qed.

(** The contents EncodeASNSeq makes: the elements, in a SEQUENCE unless they
    end with NULL *)
Definition as_contents (l : list asinfo) : bytes :=
  let (l', null) := as_until_null l in
  let b := concat (map (fun a => r_full (as_raw a)) l') in
  if null then b else put_tlv 0 true 16 b.

Lemma map_opt_as : forall l, map_opt as_octets l = Some (map (fun a => r_full (as_raw a)) l).
Proof. intros l. apply map_opt_all. intros a _. apply as_octets_eq. Qed.

Lemma as_all_ne : forall l, Forall (fun b : bytes => b <> []) (map (fun a => r_full (as_raw a)) l).
Proof. intros l. apply Forall_map, Forall_forall. intros a _. apply as_full_ne. Qed.

Lemma encode_as_seq_eq : forall l, exists bs, encode_as_seq l = Some bs /\ (bs = [] <-> l = []) /\
  Forall (fun b => b <> []) bs /\ (l <> [] -> concat bs = as_contents l).
Proof.
  intros l. unfold encode_as_seq, as_contents. destruct l as [|a l].
  { exists []. split; [reflexivity|]. split; [now split|]. split; [constructor|congruence]. }
  destruct (as_until_null (a :: l)) as [l' null] eqn:E.
  assert (Hl : l' <> []).
  { destruct a; cbn [as_until_null] in E; try (destruct (as_until_null l) as [r b]); injection E as <- <-; discriminate. }
  rewrite map_opt_as. cbn [bindopt]. destruct null.
  - eexists. split; [reflexivity|]. split; [|split].
    + destruct l'; [congruence|]. split; discriminate.
    + apply as_all_ne.
    + reflexivity.
  - rewrite marshal_raws_eq by apply as_all_ne. cbn [opt_map]. eexists. split; [reflexivity|]. split; [|split].
    + split; discriminate.
    + constructor; [|constructor]. apply (tlv_full_ne 0 true 16).
    + intros _. cbn [concat]. apply app_nil_r.
Qed.

(** What the encoder does with a list of elements, as choices *)
Lemma encode_as_loop_until : forall l acc, encode_as_loop l acc =
  let (l', null) := as_until_null l in
  if null then inr (acc ++ map as_elem_of (removelast l')) else inl (ASeq (acc ++ map as_elem_of l')).
Proof.
  induction l as [|a l IH]; intros acc.
  - cbn. now rewrite app_nil_r.
  - cbn [encode_as_loop as_until_null]. destruct a as [x y|x|].
    + rewrite IH. destruct (as_until_null l) as [r b] eqn:E. destruct b; cbn [map].
      * destruct r as [|z r].
        { exfalso. destruct l as [|[? ?|?|] l]; cbn [as_until_null] in E; try discriminate;
            destruct (as_until_null l); discriminate. }
        rewrite <- app_assoc. reflexivity.
      * rewrite <- app_assoc. reflexivity.
    + rewrite IH. destruct (as_until_null l) as [r b] eqn:E. destruct b; cbn [map].
      * destruct r as [|z r].
        { exfalso. destruct l as [|[? ?|?|] l]; cbn [as_until_null] in E; try discriminate;
            destruct (as_until_null l); discriminate. }
        rewrite <- app_assoc. reflexivity.
      * rewrite <- app_assoc. reflexivity.
    + cbn. now rewrite app_nil_r.
Qed.

Lemma until_null_in : forall l a, In a (fst (as_until_null l)) -> In a l.
Proof.
  induction l as [|b l IH]; intros a H; [exact H|]. specialize (IH a). cbn [as_until_null] in H.
  revert IH H. destruct b as [x y|x|]; [| |intros _ [<-|[]]; now left];
    destruct (as_until_null l) as [r n]; cbn [fst]; intros IH [<-|H]; [now left|right; auto|now left|right; auto].
Qed.

Lemma until_null_last : forall l l', as_until_null l = (l', true) -> exists p, l' = p ++ [ASNull] /\ ~ In ASNull p.
Proof.
  induction l as [|b l IH]; intros l' H; [discriminate|]. cbn [as_until_null] in H.
  destruct b as [x y|x|]; [| |injection H as <-; exists []; split; [reflexivity|intros []]];
    revert IH H; destruct (as_until_null l) as [r n]; intros IH H; injection H as <- ->; destruct (IH r eq_refl) as (p & -> & N).
  - exists (ASRange x y :: p). split; [reflexivity|]. intros [X|X]; [discriminate|auto].
  - exists (ASNum x :: p). split; [reflexivity|]. intros [X|X]; [discriminate|auto].
Qed.

(** Whatever list is encoded, decoding gives what the choice-level model says. *)
Lemma as_id_back : forall l r c, l <> [] -> Forall as_ok l -> r_bytes r = as_contents l ->
  Z.of_nat (length (as_contents l)) < 2 ^ 31 -> encode_as l = Some c -> decode_as_id r = decode_as c.
Proof.
  intros l r c Hl Ho Hr L E. unfold decode_as_id. rewrite Hr. unfold encode_as in E.
  destruct l as [|a0 l0] eqn:El; [congruence|]. rewrite <- El in *. clear El a0 l0 Hl Hr.
  injection E as <-. rewrite encode_as_loop_until. unfold as_contents in *.
  assert (Ho' : Forall as_ok (fst (as_until_null l))).
  { apply Forall_forall. intros a Ha. rewrite Forall_forall in Ho. apply Ho. now apply until_null_in. }
  destruct (as_until_null l) as [l' null] eqn:En. cbn [fst] in Ho'. rewrite Forall_forall in Ho'.
  destruct null.
  - destruct (until_null_last l l' En) as (p & -> & Np). rewrite removelast_last. cbn [app].
    assert (B : forall a, In a (p ++ [ASNull]) -> Z.of_nat (length (r_full (as_raw a))) < 2 ^ 31).
    { intros a Ha.
      pose proof (concat_in_length (map (fun a => r_full (as_raw a)) (p ++ [ASNull])) (r_full (as_raw a))
        ltac:(apply (in_map (fun a => r_full (as_raw a))); exact Ha)). lia. }
    destruct p as [|a p].
    + cbn [app map concat]. rewrite raw_back by (apply as_raw_fits || idtac; apply B; now left). reflexivity.
    + cbn [app map concat]. rewrite raw_back by (apply as_raw_fits || idtac; apply B; now left).
      destruct a as [x y|x|]; [| |exfalso; apply Np; now left].
      * cbn [as_raw tlv_raw r_tag r_full Z.eqb Pos.eqb as_elem_of].
        assert (Hxy : int64 x /\ int64 y) by (apply (Ho' (ASRange x y)); now left).
        specialize (B (ASRange x y) ltac:(now left)). cbn [as_raw tlv_raw r_full] in B.
        assert (I : int_octets x ++ int_octets y = concat (map r_full [as_raw (ASNum x); as_raw (ASNum y)]))
          by (cbn [map concat as_raw tlv_raw r_full]; now rewrite app_nil_r).
        rewrite I in *.
        assert (Bx : forall z, In z [x; y] -> Z.of_nat (length (r_full (as_raw (ASNum z)))) < 2 ^ 31).
        { intros z Hz. pose proof (put_tlv_length 0 true 16 (concat (map r_full [as_raw (ASNum x); as_raw (ASNum y)]))).
          pose proof (concat_in_length (map r_full [as_raw (ASNum x); as_raw (ASNum y)]) (r_full (as_raw (ASNum z)))
            ltac:(destruct Hz as [<-|[<-|[]]]; [now left|right; now left])). lia. }
        rewrite raws_slice_back; [|constructor; [apply as_raw_fits, Bx; now left|constructor; [apply as_raw_fits, Bx; right; now left|constructor]]|exact B].
        cbn [map].
        rewrite (as_elem_raw (ASNum x)) by (first [apply Hxy|apply Bx; now left]).
        rewrite (as_elem_raw (ASNum y)) by (first [apply Hxy|apply Bx; right; now left]).
        reflexivity.
      * reflexivity.
  - set (rs := map as_raw l').
    assert (M : map (fun a => r_full (as_raw a)) l' = map r_full rs) by (unfold rs; now rewrite map_map).
    rewrite M in *.
    assert (B : forall a, In a l' -> Z.of_nat (length (r_full (as_raw a))) < 2 ^ 31).
    { intros a Ha. pose proof (put_tlv_length 0 true 16 (concat (map r_full rs))).
      pose proof (concat_in_length (map r_full rs) (r_full (as_raw a))
        ltac:(unfold rs; rewrite map_map; apply (in_map (fun a => r_full (as_raw a))); exact Ha)). lia. }
    rewrite <- (app_nil_r (put_tlv _ _ _ _)).
    change (put_tlv 0 true 16 (concat (map r_full rs)))
      with (r_full (tlv_raw 0 true 16 (concat (map r_full rs)))) at 1.
    rewrite raw_back.
    + cbn [tlv_raw r_tag Z.eqb Pos.eqb]. rewrite raws_slice_back.
      * f_equal. cbn [app]. f_equal. unfold rs. rewrite map_map. apply map_ext_in. intros a Ha.
        apply as_elem_raw; auto.
      * unfold rs. apply Forall_map, Forall_forall. intros a Ha. apply as_raw_fits. auto.
      * exact L.
    + apply tlv_raw_fits; try lia. pose proof (put_tlv_length 0 true 16 (concat (map r_full rs))). lia.
    + exact L.
Qed.

(** ** The AS number extension *)
(** One optional field of ASIdentifiers *)
Definition as_field_raw (k : Z) (l : list asinfo) : raw :=
  match l with [] => raw0 | _ => tlv_raw 2 true k (as_contents l) end.
Definition as_field (k : Z) (l : list asinfo) : bytes :=
  match l with [] => [] | _ => put_tlv 2 true k (as_contents l) end.

Lemma make_as_field : forall k l bs, encode_as_seq l = Some bs -> 0 <= k < 31 ->
  make_field (GSlice GRaw) (p_omit_tag k) (v_raws (map raw_full bs)) = Some (as_field k l).
Proof.
  intros k l bs E Hk. destruct (encode_as_seq_eq l) as (bs' & E' & Z & N & C). rewrite E in E'. injection E' as <-.
  rewrite make_field_eq. destruct bs as [|b bs].
  - rewrite (proj1 Z eq_refl). reflexivity.
  - assert (Hl : l <> []) by (intros ->; now discriminate (proj2 Z eq_refl)).
    unfold v_raws. cbn [map left_out p_omit_tag p_omit p_opt andb orb].
    cbn [make_tag universal p_set make_body].
    change (VRaw (raw_full b) :: map VRaw (map raw_full bs)) with (map VRaw (map raw_full (b :: bs))).
    rewrite !map_map.
    rewrite (all_some_map _ _ _ (fun b => b)).
    2:{ intros x Hx. apply make_raw_full. rewrite Forall_forall in N. now apply N. }
    cbn [opt_map p_omit_tag p_set]. rewrite map_id. unfold wrap, is_cons. cbn [p_omit_tag p_tag p_explicit universal].
    rewrite (C Hl). unfold as_field. destruct l; [congruence|reflexivity].
Qed.

Lemma make_as_raw : forall k l, make_field GRaw (p_opt_tag k) (VRaw (as_field_raw k l)) = Some (as_field k l).
Proof.
  intros k l. rewrite make_field_eq. unfold as_field, as_field_raw. destruct l as [|a l]; [reflexivity|].
  unfold left_out, is_zero, raw_zero. cbn [tlv_raw r_class Z.eqb]. cbn [andb orb p_opt_tag p_default p_omit p_opt].
  destruct (put_tlv_cons 2 true k (as_contents (a :: l))) as (x & w & E). cbn [tlv_raw r_full]. rewrite E. reflexivity.
Qed.

Lemma as_field_length : forall k l, (length (as_contents l) < length (as_field k l))%nat \/ l = [].
Proof. intros k [|a l]; [now right|]. left. apply put_tlv_length. Qed.

Lemma as_field_fits : forall k l, 0 <= k < 31 -> l <> [] -> Z.of_nat (length (as_field k l)) < 2 ^ 31 ->
  fits GRaw (p_opt_tag k) (VRaw (as_field_raw k l)).
Proof.
  intros k l Hk Hl L. destruct (as_field_length k l) as [X|X]; [|congruence].
  unfold as_field_raw. destruct l as [|a l]; [congruence|].
  split; [split; [exact Hk|split; [discriminate|exact I]]|]. split; [apply tlv_full_ne|]. split.
  - intros rest. cbn [tlv_raw r_full r_class r_cons r_tag r_bytes]. apply tlv_read; lia.
  - cbn [p_opt_tag p_tag p_explicit tlv_raw r_class r_tag]. split; [reflexivity|]. split; [reflexivity|discriminate].
Qed.

Lemma as_raw_left_out : forall k l, left_out (p_opt_tag k) (VRaw (as_field_raw k l)) = match l with [] => true | _ => false end.
Proof. intros k [|a l]; reflexivity. Qed.

Definition as_expected (l : list asinfo) : list asinfo * bool :=
  match encode_as l with None => ([], true) | Some c => decode_as c end.

Lemma as_ext_octets : forall nums rdi, Forall as_ok nums -> Forall as_ok rdi ->
  exists b, encode_as_ext nums rdi = Some b /\
   (Z.of_nat (length b) < 2 ^ 31 -> forall rest,
     decode_as_ext (b ++ rest) =
       (let (x, ok) := as_expected nums in
        if ok then let (y, ok') := as_expected rdi in (x, y, ok') else (x, [], false))).
Proof.
  intros nums rdi Hn Hr.
  exists (put_tlv 0 true 16 (as_field 0 nums ++ as_field 1 rdi)). split.
  - unfold encode_as_ext. destruct (encode_as_seq_eq nums) as (bn & En & _). destruct (encode_as_seq_eq rdi) as (br & Er & _).
    rewrite En, Er. cbn [bindopt]. apply struct_octets. cbn [make_fields].
    rewrite (make_as_field 0 nums bn En) by lia. rewrite (make_as_field 1 rdi br Er) by lia. now rewrite app_nil_r.
  - intros L rest. unfold decode_as_ext.
    pose proof (put_tlv_length 0 true 16 (as_field 0 nums ++ as_field 1 rdi)) as L1. rewrite app_length in L1.
    assert (M2 : make_fields [(p_opt_tag 1, GRaw)] [VRaw (as_field_raw 1 rdi)] = Some (as_field 1 rdi)).
    { cbn [make_fields]. rewrite make_as_raw. now rewrite app_nil_r. }
    rewrite (read_back _ t_as_ids _ (VStruct [] [VRaw (as_field_raw 0 nums); VRaw (as_field_raw 1 rdi)]) _
               (as_field_raw 0 nums, as_field_raw 1 rdi)).
    + assert (X : forall k l, Forall as_ok l -> Z.of_nat (length (as_field k l)) < 2 ^ 31 ->
        (if r_class (as_field_raw k l) =? 0 then ([], true) else decode_as_id (as_field_raw k l)) = as_expected l).
      { intros k l Ho Lk. destruct (as_field_length k l) as [X|X]; [|subst l; reflexivity].
        unfold as_expected. destruct l as [|a l]; [reflexivity|].
        destruct (encode_as (a :: l)) as [c|] eqn:Ec; [|discriminate].
        rewrite (as_id_back (a :: l) (as_field_raw k (a :: l)) c); [reflexivity|discriminate|exact Ho|reflexivity|lia|exact Ec]. }
      rewrite (X 0 nums Hn) by lia. destruct (as_expected nums) as [x ok]. destruct ok; [|reflexivity].
      rewrite (X 1 rdi Hr) by lia. reflexivity.
    + apply fits_struct. split; [now apply pok_plain|].
      change (fits_fields [(p_opt_tag 0, GRaw); (p_opt_tag 1, GRaw)] [VRaw (as_field_raw 0 nums); VRaw (as_field_raw 1 rdi)])
        with ((if left_out (p_opt_tag 0) (VRaw (as_field_raw 0 nums))
               then default_value (p_opt_tag 0) GRaw = Some (VRaw (as_field_raw 0 nums)) /\
                 match make_fields [(p_opt_tag 1, GRaw)] [VRaw (as_field_raw 1 rdi)] with Some b => skips (p_opt_tag 0) GRaw b | None => False end
               else fits GRaw (p_opt_tag 0) (VRaw (as_field_raw 0 nums))) /\
              (if left_out (p_opt_tag 1) (VRaw (as_field_raw 1 rdi))
               then default_value (p_opt_tag 1) GRaw = Some (VRaw (as_field_raw 1 rdi)) /\ True
               else fits GRaw (p_opt_tag 1) (VRaw (as_field_raw 1 rdi))) /\ True).
      rewrite M2, !as_raw_left_out. split; [|split; [|exact I]].
      * destruct nums as [|a nums]; [|apply as_field_fits; [lia|discriminate|lia]].
        split; [reflexivity|]. unfold as_field. destruct rdi as [|a rdi]; [exact I|].
        unfold skips. destruct (put_tlv_cons 2 true 1 (as_contents (a :: rdi))) as (x & w & E).
        rewrite E. rewrite <- E. rewrite <- (app_nil_r (put_tlv _ _ _ _)).
        rewrite tlv_read; [reflexivity|lia|lia|]. destruct (as_field_length 1 (a :: rdi)) as [X|X]; [lia|discriminate].
      * destruct rdi as [|a rdi]; [split; [reflexivity|exact I]|]. apply as_field_fits; [lia|discriminate|lia].
    + apply struct_octets. cbn [make_fields]. rewrite !make_as_raw. now rewrite app_nil_r.
    + exact L.
    + reflexivity.
Qed.

Definition as_plain (l : list asinfo) : Prop := ~ In ASNull l \/ l = [ASNull].
Lemma as_ext_back : forall nums rdi, Forall as_ok nums -> Forall as_ok rdi -> as_plain nums -> as_plain rdi ->
  exists b, encode_as_ext nums rdi = Some b /\
   (Z.of_nat (length b) < 2 ^ 31 -> forall rest, decode_as_ext (b ++ rest) = (nums, rdi, true)).
Proof.
  intros nums rdi Hn Hr Pn Pr. destruct (as_ext_octets nums rdi Hn Hr) as (b & E & D). exists b. split; [exact E|].
  assert (X : forall l, as_plain l -> as_expected l = (l, true)).
  { intros l P. unfold as_expected. destruct l as [|a l]; [reflexivity|].
    destruct (encode_decode_as (a :: l) ltac:(discriminate) P) as (c & -> & ->). reflexivity. }
  intros L rest. rewrite (D L rest), (X nums Pn), (X rdi Pr). reflexivity.
Qed.

(** ** Subject information access, key identifiers *)
Lemma sia_fits : forall s, oid_fits (fst s) -> fits t_sia p0 (v_sia s).
Proof.
  intros s H. apply fits_struct. split; [now apply pok_plain|]. cbn [fits_fields]. rewrite left_out_p0.
  split; [split; [now apply pok_plain|exact H]|]. split; [|exact I].
  change (left_out (p_tagged 6) (VOctets (snd s))) with false. split; [|exact I].
  split; [cbn; lia|split; [discriminate|exact I]].
Qed.

Lemma sia_octets : forall l, Forall (fun s => oid_fits (fst s)) l ->
  exists b, encode_sia l = Some b /\
   (Z.of_nat (length b) < 2 ^ 31 -> forall rest, decode_sia (b ++ rest) = Some l).
Proof.
  intros l H. rewrite Forall_forall in H.
  assert (S : forall s, In s l -> exists b, marshal t_sia (v_sia s) = Some b).
  { intros s Hs. apply (fits_make t_sia p0). apply sia_fits. auto. }
  set (g := fun s => odefault [] (marshal t_sia (v_sia s))).
  assert (G : forall s, In s l -> marshal t_sia (v_sia s) = Some (g s)).
  { intros s Hs. destruct (S s Hs) as (b & E). unfold g. rewrite E. reflexivity. }
  exists (put_tlv 0 true 16 (concat (map g l))). split.
  - unfold encode_sia. rewrite (map_opt_all _ _ _ g) by exact G. cbn [bindopt]. apply marshal_raws_eq.
    apply Forall_map, Forall_forall. intros s Hs. specialize (G s Hs).
    apply (made_nonempty t_sia p0 (v_sia s)); auto. apply sia_fits. auto.
  - intros L rest. unfold decode_sia. apply (read_back _ _ _ (VSlice (map v_sia l))).
    + apply fits_slice. split; [now apply pok_plain|]. split; [|discriminate].
      apply Forall_map, Forall_forall. intros s Hs. apply sia_fits. auto.
    + apply slice_octets. rewrite map_map. apply all_some_map. exact G.
    + exact L.
    + cbn [slice_of]. apply map_opt_map. intros [o n] _. reflexivity.
Qed.

Lemma crl_key_octets : forall k, k <> [] -> exists b, encode_crl_key k = Some b /\
  (Z.of_nat (length b) < 2 ^ 31 -> forall rest, decode_key_authority (b ++ rest) = Some k).
Proof.
  intros k Hk. exists (put_tlv 0 true 16 (put_tlv 2 false 0 k)). split.
  - unfold encode_crl_key, t_crl_key. apply struct_octets. cbn [make_fields]. rewrite make_field_eq.
    destruct k as [|x k]; [congruence|]. cbn [left_out p_opt_tag p_omit p_opt p_default is_zero andb orb].
    cbn [make_tag universal p_opt_tag p_set make_body]. unfold wrap, is_cons. cbn [p_opt_tag p_tag p_explicit universal].
    now rewrite app_nil_r.
  - intros L rest. unfold decode_key_authority. apply (read_back _ _ _ (VStruct [] [VOctets k])).
    + apply fits_struct. split; [now apply pok_plain|]. cbn [fits_fields].
      change (left_out (p_tagged 0) (VOctets k)) with false. split; [|exact I]. split; [|exact I].
      split; [cbn; lia|split; [discriminate|exact I]].
    + apply struct_octets. cbn [make_fields]. change (make_field GOctets (p_tagged 0) (VOctets k)) with (Some (put_tlv 2 false 0 k)).
      cbv beta iota. now rewrite app_nil_r.
    + exact L.
    + reflexivity.
Qed.

(** ** Manifests *)
Definition mft_fits (m : mft_content) : Prop :=
  (exists n, mc_number m = Some n) /\ date_fits (mc_this m) /\ date_fits (mc_next m) /\ oid_fits (mc_alg m) /\
  Forall (fun f => forallb (fun b => b <? 128) (fst f) = true /\ wf_bits (snd f)) (mc_files m).

Lemma file_fits : forall f, forallb (fun b => b <? 128) (fst f) = true -> wf_bits (snd f) -> fits t_file p0 (v_file f).
Proof.
  intros f Hn Hh. apply fits_struct. split; [now apply pok_plain|]. cbn [fits_fields]. rewrite left_out_p0.
  change (left_out p_ia5 (VStr (fst f))) with false.
  split; [|split; [split; [now apply pok_plain|now apply wf_bits_fit]|exact I]].
  split; [|exact Hn]. split; [reflexivity|]. split; [discriminate|]. split; [reflexivity|right; reflexivity].
Qed.

Lemma mft_content_fits : forall m, mft_fits m -> fits t_mft_content p0 (v_mft_content m).
Proof.
  intros m ((n & Hn) & H1 & H2 & Ho & Hf). apply fits_struct. split; [now apply pok_plain|].
  cbn [fits_fields]. rewrite !left_out_p0.
  change (left_out p_generalized (VTime (mc_this m))) with false.
  change (left_out p_generalized (VTime (mc_next m))) with false.
  cbv iota.
  split; [rewrite Hn; split; [now apply pok_plain|exact I]|].
  split; [split; [split; [reflexivity|split; [discriminate|reflexivity]]|exact H1]|].
  split; [split; [split; [reflexivity|split; [discriminate|reflexivity]]|exact H2]|].
  split; [split; [now apply pok_plain|exact Ho]|]. split; [|exact I].
  apply fits_slice. split; [now apply pok_plain|]. split; [|discriminate].
  apply Forall_map. eapply Forall_impl; [|exact Hf]. intros f [? ?]. now apply file_fits.
Qed.

Lemma mft_content_of_v : forall m, mft_content_of (v_mft_content m) = Some m.
Proof.
  intros [n t1 t2 o fs]. cbn [v_mft_content mft_content_of mc_number mc_this mc_next mc_alg mc_files slice_of].
  rewrite map_opt_map; [reflexivity|]. intros [a b] _. reflexivity.
Qed.

Lemma mft_octets_back : forall m, mft_fits m ->
  exists b, marshal t_mft_content (v_mft_content m) = Some b /\
    (Z.of_nat (length b) < 2 ^ 31 -> forall rest,
       read_as t_mft_content mft_content_of (b ++ rest) = Some m).
Proof.
  intros m H. pose proof (mft_content_fits m H) as F. destruct (fits_make _ _ _ F) as (b & E). exists b.
  split; [exact E|]. intros L rest. eapply read_back; eauto. apply mft_content_of_v.
Qed.
