(** Revocation lists, made and read. *)
From Coq Require Import Lia Bool ZifyBool ZifyNat.
From Verif.Model Require Import Base Str NetIP CertRes Roa Ber Asn1 GoTime Der Tal Cms Validator ObjDer X509 CrlMake.
From Verif.Spec Require Import Addr Resources Bits Canon BerSpec IpExtSpec CmsSpec ObjSpec CrlSpec CrlMakeSpec.
From Verif.Proofs Require Import StrProofs NetIPProofs BerProofs DerPrim DerProofs DerBytes ObjEncode ObjSign ObjRound ObjBytes.
Ltac Zify.zify_post_hook ::= Z.div_mod_to_equations.

(** ** Options and raw contents *)
Lemma opt_read : forall t l v r, parse_field t p0 l = Some (v, r) -> parse_field t p_opt0 l = Some (v, r).
Proof.
  intros t l v r H. rewrite parse_field_eq in *. cbv zeta in *. change (default_value p0 t) with (@None govalue) in H.
  destruct l as [|x l]; [discriminate|]. destruct (parse_header (x :: l)) as [[h0 r0]|]; [|discriminate].
  change (open_explicit p_opt0 t h0 r0) with (open_explicit p0 t h0 r0).
  destruct (open_explicit p0 t h0 r0) as [h r1| |]; try discriminate.
  change (matches p_opt0 t h) with (matches p0 t h). destruct (negb (matches p0 t h)); [discriminate|].
  destruct (Z.of_nat (length r1) <? h_len h); [discriminate|]. destruct t; exact H.
Qed.
Lemma raw_read : forall fs l v r, parse_field (GStruct false fs) p0 l = Some (VStruct [] v, r) ->
  parse_field (GStruct true fs) p0 l = Some (VStruct (firstn (length l - length r) l) v, r).
Proof.
  intros fs l v r H. rewrite parse_field_eq in *. cbv zeta in *.
  change (default_value p0 (GStruct false fs)) with (@None govalue) in H.
  destruct l as [|x l]; [discriminate|]. destruct (parse_header (x :: l)) as [[h0 r0]|]; [|discriminate].
  change (open_explicit p0 (GStruct true fs) h0 r0) with (open_explicit p0 (GStruct false fs) h0 r0).
  destruct (open_explicit p0 (GStruct false fs) h0 r0) as [h r1| |]; try discriminate.
  change (matches p0 (GStruct true fs) h) with (matches p0 (GStruct false fs) h).
  destruct (negb (matches p0 (GStruct false fs) h)); [discriminate|].
  destruct (Z.of_nat (length r1) <? h_len h); [discriminate|]. cbn [decode_inner] in *.
  destruct (parse_fields fs _) as [vs|]; [|discriminate]. cbn [opt_map] in *.
  apply some_eq in H. injection H as H1 H2. subst. reflexivity.
Qed.

(** ** Values that can be written *)
Lemma pok_opt0 : forall t, match t with GString => False | _ => True end -> params_ok t p_opt0.
Proof. intros t H. split; [reflexivity|]. split; [discriminate|]. destruct t; try exact I; try contradiction. reflexivity. Qed.
Lemma pok_wrapped : forall t k, 0 <= k < 31 -> match t with GString => False | GTime => False | _ => True end ->
  params_ok t (p_opt_wrapped k).
Proof. intros t k K H. split; [exact K|]. split; [discriminate|]. destruct t; try exact I; contradiction. Qed.
Lemma pok_time : params_ok GTime p0.
Proof. repeat split. discriminate. Qed.

Lemma extension_fits : forall e, extension_ok e -> fits t_extension p0 (v_extension e).
Proof.
  intros e [O L]. apply fits_struct. split; [now apply pok_plain|]. cbn [fits_fields v_extension].
  rewrite !left_out_p0. split; [split; [now apply pok_plain|now apply object_id_fits]|]. split; [|split; [split; [now apply pok_plain|exact I]|exact I]].
  destruct (e_critical e).
  - change (left_out p_opt0 (VBool true)) with false. cbv iota. split; [now apply pok_opt0|exact I].
  - change (left_out p_opt0 (VBool false)) with true. cbv iota. split; [reflexivity|].
    cbn [make_fields]. rewrite make_octets, app_nil_r. unfold skips.
    destruct (put_tlv_cons 0 false 4 (e_value e)) as (x & w & E).
    pose proof (header_read 0 false 4 (Z.of_nat (length (e_value e))) (e_value e) ltac:(lia) ltac:(lia) ltac:(lia)) as H.
    unfold put_tlv in *. rewrite H. rewrite E. reflexivity.
Qed.
Lemma extensions_fit : forall p l, params_ok (GSlice t_extension) p -> p_set p = false -> Forall extension_ok l ->
  fits (GSlice t_extension) p (VSlice (map v_extension l)).
Proof.
  intros p l P S F. apply fits_slice. split; [exact P|]. split; [|congruence].
  apply Forall_map. eapply Forall_impl; [|exact F]. exact extension_fits.
Qed.
Lemma revoked_fits : forall r, calendar (snd (fst r)) -> Forall extension_ok (snd r) -> fits t_revoked p0 (v_revoked r).
Proof.
  intros [[n t] l] C F. cbn [fst snd] in *. apply fits_struct. split; [now apply pok_plain|].
  cbn [fits_fields v_revoked]. rewrite !left_out_p0. split; [split; [now apply pok_plain|exact I]|].
  split; [split; [exact pok_time|now apply calendar_fits]|]. split; [|exact I].
  destruct l as [|e l].
  - change (left_out p_opt0 (VSlice (map v_extension []))) with true. cbv iota. split; reflexivity.
  - change (left_out p_opt0 (VSlice (map v_extension (e :: l)))) with false. cbv iota.
    apply extensions_fit; [now apply pok_opt0|reflexivity|exact F].
Qed.

(** The algorithm as it is read *)
Definition r_sha256_rsa : govalue := VStruct [] [VOid oid_sha256_rsa; VRaw (mkRaw 0 false 5 [] [5; 0])].
Lemma alg_fits : fits t_alg p0 r_sha256_rsa.
Proof.
  apply fits_struct. split; [now apply pok_plain|]. cbn [fits_fields r_sha256_rsa]. rewrite left_out_p0.
  split; [split; [now apply pok_plain|]|].
  - split; [left; lia|reflexivity].
  - split; [|exact I]. change (left_out p_opt0 (VRaw (mkRaw 0 false 5 [] [5; 0]))) with false. cbv iota.
    split; [now apply pok_opt0|]. split; [discriminate|]. split; [|exact I]. intros rest. reflexivity.
Qed.
Lemma alg_made : make_field t_alg p0 v_sha256_rsa = make_field t_alg p0 r_sha256_rsa.
Proof. reflexivity. Qed.

(** Names *)
Lemma name_raw : forall b, sequence b -> Z.of_nat (length b) < 2 ^ 31 -> exists r, r_full r = b /\ fits GRaw p0 (VRaw r) /\
  make_field GRaw p0 (VRaw (raw_full b)) = Some b /\ make_field GRaw p0 (VRaw r) = Some b.
Proof.
  intros b S L. destruct (sequence_tlv b S L) as (c & ->). exists (mkRaw 0 true 16 c (put_tlv 0 true 16 c)).
  pose proof (put_tlv_length 0 true 16 c) as Lc. destruct (put_tlv_cons 0 true 16 c) as (x & w & E).
  split; [reflexivity|]. split; [|split; rewrite make_field_eq, left_out_p0; cbn [r_full raw_full]; rewrite E; reflexivity].
  split; [now apply pok_plain|]. cbn [r_full r_class r_cons r_tag r_bytes]. split; [rewrite E; discriminate|]. split; [|exact I].
  intros rest. cbn [r_full r_class r_cons r_tag r_bytes]. apply tlv_read; lia.
Qed.

(** Numbers of at most 20 octets *)
Lemma be_ok : forall k n, bytes_ok (be_bytes k n) = true.
Proof.
  induction k; intros n; [reflexivity|]. cbn [be_bytes]. unfold bytes_ok in *. cbn [forallb]. rewrite IHk, andb_true_r.
  unfold byte_ok. lia.
Qed.
Lemma put_int_length : forall k n, fits_in (S k) n -> (length (put_int n) <= S k)%nat.
Proof.
  intros k n F. destruct (put_int_ok n) as (V & C & _ & _).
  assert (O : bytes_ok (put_int n) = true) by apply be_ok.
  destruct (checked_coded (put_int n) O C) as (_ & _ & M). rewrite V in M.
  rewrite <- (be_length (S k) n). apply M; [discriminate|apply be_ok|].
  rewrite <- (signed_complement (be_bytes (S k) n)) by discriminate. now apply signed_bytes.
Qed.

(** ** The whole list *)
Section Made.
  Variable sha256 : bytes -> bytes.
  Variable rsa_sign : bytes -> option bytes.

  Definition made_fields : list (params * gotype) :=
    [(p_opt_zero, GInt); (p0, t_alg); (p0, GRaw); (p0, GTime); (p_opt0, GTime);
     (p0, GSlice t_revoked); (p_opt_wrapped 0, GSlice t_extension)].
  Definition read_fields : list (params * gotype) :=
    [(p_opt_zero, GInt); (p0, t_alg); (p0, GRaw); (p0, GTime); (p_opt0, GTime);
     (p_opt0, GSlice t_revoked); (p_opt_wrapped 0, GSlice t_extension)].
  Definition r_tbs (o : crl_order) (name : raw) (exts : list extension) : list govalue :=
    [VInt 1; r_sha256_rsa; VRaw name; VTime (or_now o); VTime (or_expiry o);
     VSlice (map v_revoked (or_revoked o)); VSlice (map v_extension exts)].

  Lemma fields_opt : forall l v, parse_fields made_fields l = Some v -> parse_fields read_fields l = Some v.
  Proof.
    intros l v H. unfold made_fields, read_fields in *. cbn [parse_fields] in *.
    destruct (parse_field GInt p_opt_zero l) as [[v1 l1]|]; [|discriminate].
    destruct (parse_field t_alg p0 l1) as [[v2 l2]|]; [|discriminate].
    destruct (parse_field GRaw p0 l2) as [[v3 l3]|]; [|discriminate].
    destruct (parse_field GTime p0 l3) as [[v4 l4]|]; [|discriminate].
    destruct (parse_field GTime p_opt0 l4) as [[v5 l5]|]; [|discriminate].
    destruct (parse_field (GSlice t_revoked) p0 l5) as [[v6 l6]|] eqn:E; [|discriminate].
    rewrite (opt_read _ _ _ _ E). exact H.
  Qed.
  Lemma struct_opt : forall l v r, parse_field (GStruct false made_fields) p0 l = Some (VStruct [] v, r) ->
    parse_field (GStruct false read_fields) p0 l = Some (VStruct [] v, r).
  Proof.
    intros l v r H. rewrite parse_field_eq in *. cbv zeta in *.
    change (default_value p0 (GStruct false made_fields)) with (@None govalue) in H.
    destruct l as [|x l]; [discriminate|]. destruct (parse_header (x :: l)) as [[h0 r0]|]; [|discriminate].
    change (open_explicit p0 (GStruct false read_fields) h0 r0) with (open_explicit p0 (GStruct false made_fields) h0 r0).
    destruct (open_explicit p0 (GStruct false made_fields) h0 r0) as [h r1| |]; try discriminate.
    change (matches p0 (GStruct false read_fields) h) with (matches p0 (GStruct false made_fields) h).
    destruct (negb (matches p0 (GStruct false made_fields) h)); [discriminate|].
    destruct (Z.of_nat (length r1) <? h_len h); [discriminate|]. cbn [decode_inner] in *.
    destruct (parse_fields made_fields _) as [vs|] eqn:E; [|discriminate]. rewrite (fields_opt _ _ E). exact H.
  Qed.

  Lemma zero_time : forall t, time_is_zero t = true -> t = time0.
  Proof. intros [y m d h mi s z] H. unfold time_is_zero in H. cbn in H. unfold time0. f_equal; lia. Qed.

  Lemma tbs_fits : forall o name exts, order_ok o -> fits GRaw p0 (VRaw name) -> exts <> [] -> Forall extension_ok exts ->
    fits t_tbs_made p0 (VStruct [] (r_tbs o name exts)).
  Proof.
    intros o name exts (_ & _ & _ & T1 & T2 & NZ & R & _) N X F. apply fits_struct. split; [now apply pok_plain|].
    unfold r_tbs. cbn [fits_fields]. rewrite !left_out_p0.
    change (left_out p_opt_zero (VInt 1)) with false. cbv iota.
    split; [split; [repeat split; discriminate|lia]|]. split; [exact alg_fits|]. split; [exact N|].
    split; [split; [exact pok_time|now apply calendar_fits]|]. split.
    { destruct (left_out p_opt0 (VTime (or_expiry o))) eqn:E.
      - exfalso. apply NZ. apply zero_time. unfold left_out in E. cbn in E. exact E.
      - split; [now apply pok_opt0|now apply calendar_fits]. }
    split.
    { apply fits_slice. split; [now apply pok_plain|]. split; [|discriminate]. apply Forall_map.
      eapply Forall_impl; [|exact R]. intros r [A B]. now apply revoked_fits. }
    split; [|exact I]. destruct exts as [|e exts]; [congruence|].
    change (left_out (p_opt_wrapped 0) (VSlice (map v_extension (e :: exts)))) with false. cbv iota.
    apply extensions_fit; [apply pok_wrapped; [lia|exact I]|reflexivity|exact F].
  Qed.

  Lemma tbs_made : forall o name exts, r_full name = or_name o -> fits GRaw p0 (VRaw name) ->
    make_field GRaw p0 (VRaw (raw_full (or_name o))) = make_field GRaw p0 (VRaw name) ->
    make_field t_tbs_made p0 (v_tbs_list o exts) = make_field t_tbs_made p0 (VStruct [] (r_tbs o name exts)).
  Proof.
    intros o name exts _ _ E. unfold t_tbs_made, v_tbs_list, r_tbs. rewrite !make_field_eq, !left_out_p0.
    cbn [make_tag universal make_body p0 p_set make_fields]. rewrite alg_made. unfold raw_full in E. unfold raw_full. rewrite E. reflexivity.
  Qed.

  Lemma key_ext : forall k, (1 <= length k <= 125)%nat -> encode_crl_key k = Some (key_octets k).
  Proof.
    intros k L. assert (E : put_tlv 2 false 0 k = [128; Z.of_nat (length k)] ++ k).
    { rewrite put_tlv_low by lia. unfold encode_length. destruct (128 <=? Z.of_nat (length k)) eqn:X; [lia|].
      rewrite land_255 by lia. reflexivity. }
    unfold encode_crl_key, t_crl_key. rewrite (struct_octets _ _ ([128; Z.of_nat (length k)] ++ k)).
    - f_equal. rewrite put_tlv_low by lia. unfold key_octets. rewrite app_length. cbn [length].
      replace (Z.of_nat (2 + length k)) with (Z.of_nat (length k) + 2) by lia.
      unfold encode_length. destruct (128 <=? Z.of_nat (length k) + 2) eqn:X; [lia|]. rewrite land_255 by lia. reflexivity.
    - cbn [make_fields]. rewrite make_field_eq. destruct k as [|x k]; [cbn in L; lia|].
      cbn [left_out p_opt_tag p_omit p_opt p_default is_zero andb orb].
      cbn [make_tag universal p_opt_tag p_set make_body]. unfold wrap, is_cons. cbn [p_opt_tag p_tag p_explicit universal].
      rewrite E, app_nil_r. reflexivity.
  Qed.

  Lemma slice_revoked : forall l, slice_of revoked_of (VSlice (map v_revoked l)) = Some (map (fun r => fst (fst r)) l).
  Proof.
    unfold slice_of. induction l as [|[[n t] es] l IH]; [reflexivity|]. cbn [map map_opt v_revoked revoked_of fst].
    rewrite IH. reflexivity.
  Qed.
  Lemma slice_extension : forall l, slice_of extension_of (VSlice (map v_extension l)) = Some l.
  Proof.
    unfold slice_of. induction l as [|[o k d] l IH]; [reflexivity|]. cbn [map map_opt v_extension extension_of e_id e_critical e_value].
    rewrite IH. reflexivity.
  Qed.

  Definition made_exts (o : crl_order) (n : Z) : list extension :=
    match or_ski o with [] => [] | _ => [mkExt [2; 5; 29; 35] false (key_octets (or_ski o))] end ++
    [mkExt [2; 5; 29; 20] false (put_tlv 0 false 2 (put_int n))].

  Theorem made_read : forall o b, order_ok o -> create_crl sha256 rsa_sign o = Some b -> Z.of_nat (length b) < 2 ^ 31 ->
    exists contents sig n, rsa_sign (sha256 contents) = Some sig /\ or_number o = Some n /\
      crl_read b = Some (mkXL contents (oid_sha256_rsa, [5; 0]) (or_now o) (or_expiry o)
                           (map (fun r => fst (fst r)) (or_revoked o)) (made_exts o n)
                           (mkBits sig (8 * Z.of_nat (length sig)))).
  Proof.
    intros o b OK H Lb. pose proof OK as OK'. destruct OK' as (S1 & S2 & Lk & _ & _ & _ & _ & (n & N & Bn)).
    unfold create_crl in H.
    assert (A : aki_extension (or_ski o) = Some (match or_ski o with [] => [] | _ => [mkExt [2; 5; 29; 35] false (key_octets (or_ski o))] end)).
    { unfold aki_extension. destruct (or_ski o) as [|x k] eqn:E; [reflexivity|]. rewrite key_ext; [reflexivity|].
      split; [cbn [length]; lia|exact Lk]. }
    rewrite A in H. cbn [bindopt] in H. rewrite N in H.
    change (marshal GBig (VBig (Some n))) with (Some (put_tlv 0 false 2 (put_int n))) in H. cbn [bindopt] in H. cbv zeta in H.
    change (match or_ski o with [] => [] | _ => [mkExt [2; 5; 29; 35] false (key_octets (or_ski o))] end ++
            [mkExt [2; 5; 29; 20] false (put_tlv 0 false 2 (put_int n))]) with (made_exts o n) in H.
    assert (Li : (length (put_int n) <= 20)%nat).
    { apply put_int_length. unfold fits_in. change (8 * Z.of_nat 20 - 1) with 159. exact Bn. }
    assert (FX : Forall extension_ok (made_exts o n)).
    { unfold made_exts. apply Forall_app. split.
      - destruct (or_ski o) as [|x k]; constructor; [|constructor]. split.
        + cbn [e_id object_id]. split; [right; lia|]. repeat constructor; lia.
        + cbn [e_value]. unfold key_octets. rewrite app_length. cbn [length] in Lk. cbn [length]. lia.
      - constructor; [|constructor]. split.
        + cbn [e_id object_id]. split; [right; lia|]. repeat constructor; lia.
        + cbn [e_value]. rewrite (put_tlv_short 0 false 2 (put_int n)) by lia. lia. }
    assert (NX : made_exts o n <> []).
    { unfold made_exts. destruct (or_ski o); discriminate. }
    destruct (name_raw (or_name o) S1 S2) as (name & Ef & Fn & M1 & M2).
    pose proof (tbs_made o name (made_exts o n) Ef Fn ltac:(congruence)) as ME.
    unfold marshal in H. rewrite ME in H.
    destruct (make_field t_tbs_made p0 (VStruct [] (r_tbs o name (made_exts o n)))) as [contents|] eqn:EC; [|discriminate].
    cbn [bindopt] in H. destruct (rsa_sign (sha256 contents)) as [sig|] eqn:ES; [|discriminate]. cbn [bindopt] in H.
    exists contents, sig, n. split; [exact ES|]. split; [exact N|].
    set (bits := mkBits sig (8 * Z.of_nat (length sig))) in *.
    assert (BF : bits_fit bits).
    { unfold bits_fit, bits. cbn [bs_len bs_bytes]. split; [lia|]. split; [lia|].
      replace ((8 - (8 * Z.of_nat (length sig)) mod 8) mod 8) with 0 by lia. change (2 ^ 0 - 1) with 0. apply Z.land_0_r. }
    unfold t_crl_made in H. rewrite make_field_eq, left_out_p0 in H.
    cbn [make_tag universal make_body p0 p_set make_fields] in H. rewrite ME, alg_made in H.
    destruct (make_field t_alg p0 r_sha256_rsa) as [ab|] eqn:EA; [|discriminate].
    destruct (make_field GBits p0 (VBits bits)) as [sb|] eqn:EB; [|discriminate].
    rewrite app_nil_r in H. apply some_eq in H. unfold wrap, is_cons in H. cbn [p0 p_tag universal] in H. subst b.
    pose proof (put_tlv_length 0 true 16 (contents ++ ab ++ sb)) as LL. rewrite !app_length in LL.
    pose proof (tbs_fits o name (made_exts o n) OK Fn NX FX) as TF.
    pose proof (field_back t_tbs_made p0 _ contents TF (left_out_p0 _) EC ltac:(lia) (ab ++ sb)) as R1.
    pose proof (field_back t_alg p0 _ ab alg_fits (left_out_p0 _) EA ltac:(lia) sb) as R2.
    assert (FB : fits GBits p0 (VBits bits)) by (split; [now apply pok_plain|exact BF]).
    pose proof (field_back GBits p0 _ sb FB (left_out_p0 _) EB ltac:(lia) []) as R3. rewrite app_nil_r in R3.
    unfold t_tbs_made in R1. fold made_fields in R1. apply struct_opt in R1. apply raw_read in R1.
    rewrite app_length in R1. replace (length contents + length (ab ++ sb) - length (ab ++ sb))%nat with (length contents) in R1 by lia.
    rewrite firstn_app_exact in R1.
    assert (U : unmarshal t_crl (put_tlv 0 true 16 (contents ++ ab ++ sb)) =
      Some (VStruct [] [VStruct contents (r_tbs o name (made_exts o n)); r_sha256_rsa; VBits bits], [])).
    { unfold unmarshal. rewrite <- (app_nil_r (put_tlv 0 true 16 (contents ++ ab ++ sb))).
      eapply parse_go with (b := contents ++ ab ++ sb).
      - rewrite app_nil_r. destruct (put_tlv_cons 0 true 16 (contents ++ ab ++ sb)) as (x & w & ->). discriminate.
      - apply tlv_read; [lia|lia|rewrite !app_length; lia].
      - reflexivity.
      - reflexivity.
      - reflexivity.
      - intros full _. unfold t_crl. cbn [decode_inner parse_fields]. fold read_fields. change t_tbs_list with (GStruct true read_fields).
        rewrite R1, R2, R3. reflexivity. }
    unfold crl_read. rewrite U. cbn [r_tbs xcrl_of]. unfold r_tbs. rewrite slice_revoked, slice_extension. reflexivity.
  Qed.
End Made.
