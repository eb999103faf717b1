(** The validator properties C01 to C05, from the invariants. *)
From Coq Require Import Lia.
From Verif.Model Require Import Base NetIP CertRes Roa Str Tal Validator.
From Verif.Spec Require Import Trust.
From Verif.Proofs Require Import StrProofs HeapProofs Invalidate ValidatorInv ValidatorRun ValidatorMono ValidatorAccept.

Lemma hobj_roa_at : forall v a x, roa_at v a x <-> hobj (v_heap v) a = Some (ORoa x).
Proof.
  intros. unfold roa_at, hobj. destruct (nth_error (v_heap v) a) as [r|]; cbn; split.
  - intros (r' & E & H). inversion E; subst. now rewrite H.
  - intros H. inversion H. exists r. auto.
  - intros (r' & E & _). discriminate.
  - discriminate.
Qed.

Lemma issuers_trans : forall v a b c, issuers v a b -> issuers v b c -> issuers v a c.
Proof. intros v a b c H. induction H; auto. intros. apply iss_up; auto. Qed.

Section Facts.
Variable sig_ok : cert -> cert -> bool.
Variable crl_sig_ok : cert -> crl -> bool.
Variable dec_tal : bytes -> option tal.
Variable dec_cert : bytes -> option cert.
Variable dec_roa : bytes -> option roa.
Variable dec_mft : bytes -> option mft.
Variable dec_crl : bytes -> option crl.
Variable hex_sha1 : bytes -> bytes.

Notation Inv := (Inv sig_ok).
Notation add_cert := (add_cert sig_ok).
Notation add_roa := (add_roa sig_ok).
Notation add_mft := (add_mft sig_ok).
Notation add_crl := (add_crl crl_sig_ok).
Notation add_resource := (add_resource sig_ok crl_sig_ok dec_tal dec_cert dec_roa dec_mft dec_crl hex_sha1).
Notation step := (step sig_ok crl_sig_ok dec_tal dec_cert dec_roa dec_mft dec_crl hex_sha1).
Notation run := (run sig_ok crl_sig_ok dec_tal dec_cert dec_roa dec_mft dec_crl hex_sha1).
Notation anchor := (given_as_anchor dec_cert).
Notation inv_run := (inv_run sig_ok crl_sig_ok dec_tal dec_cert dec_roa dec_mft dec_crl hex_sha1).
Notation ext_run := (ext_run sig_ok crl_sig_ok dec_tal dec_cert dec_roa dec_mft dec_crl hex_sha1).
Notation inv_step := (inv_step sig_ok crl_sig_ok dec_tal dec_cert dec_roa dec_mft dec_crl hex_sha1).
Notation ext_step := (ext_step sig_ok crl_sig_ok dec_tal dec_cert dec_roa dec_mft dec_crl hex_sha1).

(** * C01 *)
Lemma chain_of : forall ops v, Inv (anchor ops) v ->
  forall n a c, (a < n)%nat -> v_valid v (c_ski c) = Some a -> hobj (v_heap v) a = Some (OCert c) ->
  chain sig_ok dec_cert ops v c.
Proof.
  intros ops v I. induction n as [|n IH]; intros a c L V H; [lia|].
  assert (VC : valid_cert v c) by (exists a; split; [exact V|now apply hobj_cert_at]).
  destruct (inv_chain _ _ _ I _ _ _ V H) as (W & [T|(pa & pc & PV & PH & S & PP)]).
  - now apply chain_anchor.
  - destruct (inv_obj _ _ _ I _ _ (inv_valid _ _ _ I _ _ PV)) as (pc' & PH' & E).
    assert (pc' = pc) by congruence. subst pc'.
    apply (chain_link _ _ _ _ c pc); auto.
    apply (IH pa); auto; [|now rewrite E].
    apply (inv_par _ _ _ I) in PP. lia.
Qed.

Lemma chain_of_valid : forall ops now v, run ops (new_validator now) = VRet v ->
  v_time v = now /\
  forall k a, v_valid v k = Some a ->
    exists c, cert_at v a c /\ c_ski c = k /\ chain sig_ok dec_cert ops v c.
Proof.
  intros ops now v R. destruct (inv_run _ _ _ R) as (I & T). split; auto. intros k a V.
  destruct (inv_obj _ _ _ I _ _ (inv_valid _ _ _ I _ _ V)) as (c & H & <-).
  exists c. split; [now apply hobj_cert_at|]. split; auto. apply (chain_of ops v I (S a) a); auto.
Qed.

Lemma chain_of_roa : forall ops now v, run ops (new_validator now) = VRet v ->
  forall k b, v_validroa v k = Some b ->
    exists x, roa_at v b x /\ c_ski (roa_cert x) = k /\ roa_inner x = true /\
      validate_entries (roa_entries x) = true /\ chain sig_ok dec_cert ops v (roa_cert x).
Proof.
  intros ops now v R k b V. destruct (inv_run _ _ _ R) as (I & _).
  destruct (inv_vroa _ _ _ I _ _ V) as (x & a & HO & K & VA & HA & E1 & E2).
  exists x. split; [now apply hobj_roa_at|]. repeat split; auto.
  apply (chain_of ops v I (S a) a); auto. now rewrite K.
Qed.

(** * C02 *)
Lemma invalidate_exact : forall ops now v k, run ops (new_validator now) = VRet v ->
  exists v', step (DoInvalidate k) v = VRet v' /\
    (forall k', below v k k' -> v_valid v' k' = None /\ v_validroa v' k' = None /\ v_validcrl v' k' = None) /\
    (forall k', ~ below v k k' -> v_valid v' k' = v_valid v k' /\ v_validroa v' k' = v_validroa v k' /\
                                  v_validcrl v' k' = v_validcrl v k') /\
    v_heap v' = v_heap v /\ v_objects v' = v_objects v /\ v_tals v' = v_tals v /\ v_path v' = v_path v /\
    v_serial v' = v_serial v /\ v_revoked v' = v_revoked v /\ v_crl v' = v_crl v /\ v_roa v' = v_roa v /\
    v_mft v' = v_mft v /\ v_validmft v' = v_validmft v /\ v_time v' = v_time v.
Proof.
  intros ops now v k R. destruct (inv_run _ _ _ R) as (I & _). cbn [Validator.step].
  destruct (inv_invalidate_total sig_ok _ v k I) as (v' & E). exists v'. split; auto.
  apply invalidate_spec in E. destruct E as (D & -> & B).
  split; [|split].
  - intros k' H. apply B in H.
    split; [now apply drop_keys_valid|split; [now apply drop_keys_validroa|now apply drop_keys_validcrl]].
  - intros k' H. assert (~ In k' D) by (intros X; apply H; now apply B).
    split; [now apply drop_keys_valid|split; [now apply drop_keys_validroa|now apply drop_keys_validcrl]].
  - rewrite drop_keys_heap, drop_keys_objects, drop_keys_tals, drop_keys_path, drop_keys_serial, drop_keys_revoked,
      drop_keys_crl, drop_keys_roa, drop_keys_mft, drop_keys_validmft, drop_keys_time. auto 20.
Qed.

Lemma child_issuers : forall T v k k', Inv T v -> child_key v k k' -> issuers v k' k.
Proof.
  intros T v k k' I (a & r & b & rb & O & N & IN & NB & ID).
  assert (HC : In b (hch (v_heap v) a)) by (unfold hch; rewrite N; exact IN).
  assert (HB : hobj (v_heap v) b = Some (r_obj rb)) by (unfold hobj; rewrite NB; reflexivity).
  destruct (inv_obj _ _ _ I _ _ O) as (pc & PH & PK).
  destruct (r_obj rb) as [c|x|x|l|t]; cbn [identifier] in ID; inversion ID; subst k'.
  - destruct (inv_chcert _ _ _ I _ _ _ HC HB) as (OA & OS & _).
    destruct (inv_obj _ _ _ I _ _ OA) as (pc' & PH' & PK'). assert (pc' = pc) by congruence. subst pc'.
    apply iss_up; [exists b; split; [exact OS|now apply hobj_cert_at]|]. rewrite <- PK', PK. apply iss_self.
  - pose proof (inv_chroa _ _ _ I _ _ _ HC HB) as E. assert (pc = roa_cert x) by congruence. subst pc.
    rewrite PK. apply iss_self.
  - pose proof (inv_chmft _ _ _ I _ _ _ HC HB) as E. assert (pc = mft_cert x) by congruence. subst pc.
    rewrite PK. apply iss_self.
Qed.

Lemma below_issuers : forall T v k k', Inv T v -> below v k k' -> issuers v k' k.
Proof.
  intros T v k k' I B. induction B as [|k1 k2 B IH C]; [apply iss_self|].
  eapply issuers_trans; [eapply child_issuers; eauto|exact IH].
Qed.

Lemma below_is_issued : forall ops now v k k', run ops (new_validator now) = VRet v ->
  below v k k' -> issuers v k' k.
Proof. intros ops now v k k' R. destruct (inv_run _ _ _ R) as (I & _). eapply below_issuers; eauto. Qed.

(** The other direction: a valid non-anchor certificate is below its issuer. *)
Lemma valid_below_issuer : forall T v c, Inv T v -> valid_cert v c -> ~ T c ->
  child_key v (c_aki c) (c_ski c) /\ v_valid v (c_aki c) <> None.
Proof.
  intros T v c I (a & V & C) NT. apply hobj_cert_at in C.
  destruct (inv_chain _ _ _ I _ _ _ V C) as (_ & [X|(pa & pc & PV & PH & S & PP)]); [contradiction|].
  split; [|congruence].
  destruct (inv_link _ _ _ I _ _ _ _ V C PP) as (CH & OA).
  eapply child_key_hch; eauto.
Qed.

Inductive signed_down (T : cert -> Prop) (v : validator) (k : bytes) : bytes -> Prop :=
| sd_self : signed_down T v k k
| sd_step c : valid_cert v c -> ~ T c -> signed_down T v k (c_aki c) -> signed_down T v k (c_ski c).

Lemma signed_down_below : forall T v k k', Inv T v -> signed_down T v k k' -> below v k k'.
Proof.
  intros T v k k' I S. induction S as [|c V NT S IH]; [apply below_self|].
  apply (below_child _ _ (c_aki c)); auto. eapply valid_below_issuer; eauto.
Qed.

Lemma signed_removed : forall ops now v k v', run ops (new_validator now) = VRet v ->
  step (DoInvalidate k) v = VRet v' ->
  forall k', signed_down (anchor ops) v k k' -> v_valid v' k' = None /\ v_validroa v' k' = None.
Proof.
  intros ops now v k v' R H k' S. destruct (inv_run _ _ _ R) as (I & _).
  apply (signed_down_below _ _ _ _ I) in S.
  destruct (invalidate_exact ops now v k R) as (v2 & E & B & _).
  assert (v2 = v') by congruence. subst. destruct (B _ S) as (? & ? & _). auto.
Qed.

(** * C03 *)
Lemma never_again : forall T ops v v' k a, Inv T v -> (forall c, anchor ops c -> T c) ->
  run ops v = VRet v' -> v_objects v k = Some a -> v_valid v k = None ->
  v_valid v' k = None /\ v_validroa v' k = None /\ v_validcrl v' k = None.
Proof.
  intros T ops v v' k a I TR R O V. destruct (ext_run T ops v v' I TR R) as (X & I').
  assert (N := ext_valid _ _ X _ _ O V). split; auto. split.
  - destruct (v_validroa v' k) as [b|] eqn:E; auto.
    destruct (inv_vroa _ _ _ I' _ _ E) as (x & a' & _ & _ & VA & _). congruence.
  - destruct (v_validcrl v' k) as [b|] eqn:E; auto.
    destruct (inv_vcrl _ _ _ I' _ _ E) as (VA & _). congruence.
Qed.

Lemma run_inv2 : forall ops now v ops2 v2, run ops (new_validator now) = VRet v -> run ops2 v = VRet v2 ->
  run (ops ++ ops2) (new_validator now) = VRet v2.
Proof.
  intros. rewrite run_app. rewrite H. exact H0.
Qed.

Lemma not_valid_never_again : forall ops now v ops2 v2 k,
  run ops (new_validator now) = VRet v -> v_objects v k <> None -> v_valid v k = None ->
  run ops2 v = VRet v2 ->
  v_valid v2 k = None /\ v_validroa v2 k = None /\ v_validcrl v2 k = None.
Proof.
  intros ops now v ops2 v2 k R O V R2. destruct (v_objects v k) as [a|] eqn:E; [|congruence].
  destruct (inv_run _ _ _ R) as (I & _).
  eapply (never_again (anchor (ops ++ ops2)) ops2 v v2 k a); eauto.
  - eapply inv_mono; [|exact I]. intros; now apply anchor_app_l.
  - intros; now apply anchor_app_r.
Qed.

Lemma invalidated_never_again : forall ops now v k v1 ops2 v2 k',
  run ops (new_validator now) = VRet v -> step (DoInvalidate k) v = VRet v1 ->
  below v k k' -> v_objects v k' <> None -> run ops2 v1 = VRet v2 ->
  v_valid v2 k' = None /\ v_validroa v2 k' = None /\ v_validcrl v2 k' = None.
Proof.
  intros ops now v k v1 ops2 v2 k' R H B O R2.
  destruct (invalidate_exact ops now v k R) as (v1' & E & X & _ & _ & EO & _).
  assert (v1' = v1) by congruence. subst. destruct (X _ B) as (N & _).
  apply (not_valid_never_again (ops ++ [DoInvalidate k]) now v1 ops2 v2 k'); auto.
  - eapply run_inv2; eauto. cbn [Validator.run]. rewrite H. reflexivity.
  - now rewrite EO.
Qed.

(** * C04 *)
(** A marked serial is never accepted. *)
Lemma marked_never_accepted : forall T ops v v', Inv T v -> (forall c, anchor ops c -> T c) ->
  run ops v = VRet v' ->
  forall c, kin (v_revoked v) (serial_key (c_aki c) (c_serial c)) = true ->
  valid_cert v' c -> ~ anchor ops c -> valid_cert v c.
Proof.
  intros T. induction ops as [|o ops IH]; intros v v' I TR R c K V NA; cbn [Validator.run] in R.
  - inversion R; subst. exact V.
  - vb R.
    assert (TR1 : forall c, anchor [o] c -> T c) by (intros; apply TR, anchor_cons; auto).
    destruct (inv_step T _ _ _ I TR1 E) as (I1 & _).
    assert (X := ext_step T _ _ _ I TR1 E).
    assert (V1 : valid_cert y c).
    { apply (IH y v'); auto.
      - intros; apply TR, anchor_tail; auto.
      - now apply (ext_revoked _ _ X).
      - intros A. apply NA. now apply anchor_tail. }
    destruct V1 as (a & VA & CA). apply hobj_cert_at in CA.
    destruct (new_valid_step sig_ok crl_sig_ok dec_tal dec_cert dec_roa dec_mft dec_crl hex_sha1 T _ _ _ I E _ _ VA)
      as [VO|(c' & [X1 X2 X3 X4 X5 X6 X7])].
    + exists a. split; auto. apply hobj_cert_at.
      destruct (inv_obj _ _ _ I _ _ (inv_valid _ _ _ I _ _ VO)) as (c2 & H2 & _).
      pose proof (ext_obj _ _ X _ _ H2). congruence.
    + assert (c' = c) by congruence. subst c'. destruct X7 as [X7|X7].
      * apply validate_cert_true in X7. destruct X7 as (_ & pa & pc & _ & _ & _ & KF). congruence.
      * exfalso. apply NA. now apply anchor_cons.
Qed.

(** Every valid certificate with an issuer is in the serial number index. *)
Definition indexed (v : validator) : Prop :=
  forall k a c, v_valid v k = Some a -> hobj (v_heap v) a = Some (OCert c) -> hpar (v_heap v) a <> None ->
    kin (v_serial v) (serial_key (c_aki c) (c_serial c)) = true.

Lemma indexed_step : forall T o v v', Inv T v -> (forall c, anchor [o] c -> T c) ->
  indexed v -> step o v = VRet v' -> indexed v'.
Proof.
  intros T o v v' I TR IX E k a c V H P.
  assert (X := ext_step T _ _ _ I TR E).
  destruct (new_valid_step sig_ok crl_sig_ok dec_tal dec_cert dec_roa dec_mft dec_crl hex_sha1 T _ _ _ I E _ _ V)
      as [VO|(c' & [X1 X2 X3 X4 X5 X6 X7])].
  - destruct (inv_obj _ _ _ I _ _ (inv_valid _ _ _ I _ _ VO)) as (c2 & H2 & _).
    pose proof (ext_obj _ _ X _ _ H2) as H3. assert (c2 = c) by congruence. subst c2.
    apply (ext_serial _ _ X). apply (IX k a); auto. now rewrite <- (ext_par _ _ X) by (now apply hobj_lt in H2).
  - assert (c' = c) by congruence. subst c'. apply X6. now rewrite <- X5.
Qed.

Lemma indexed_run : forall T ops v v', Inv T v -> (forall c, anchor ops c -> T c) ->
  indexed v -> run ops v = VRet v' -> indexed v'.
Proof.
  intros T. induction ops as [|o ops IH]; intros v v' I TR IX R; cbn [Validator.run] in R.
  - inversion R; subst. exact IX.
  - vb R.
    assert (TR1 : forall c, anchor [o] c -> T c) by (intros; apply TR, anchor_cons; auto).
    destruct (inv_step T _ _ _ I TR1 E) as (I1 & _).
    assert (IX1 : indexed y) by (apply (indexed_step T _ _ _ I TR1 IX E)).
    apply (IH y v'); auto. intros; apply TR, anchor_tail; auto.
Qed.

(** The loop over the revoked serial numbers. *)
Lemma revoke_loop_marks : forall aki l v v', revoke_loop aki l v = VRet v' ->
  forall k, kin (v_revoked v') k = true <->
            kin (v_revoked v) k = true \/ exists s, In s l /\ k = serial_key aki s.
Proof.
  induction l as [|s l IH]; intros v v' H k.
  - inversion H; subst. split; auto. intros [X|(s & [] & _)]; auto.
  - rewrite revoke_loop_cons in H. vb H. rewrite (IH _ _ H). cbn [put_revoked v_revoked]. rewrite kin_kset.
    assert (ER : v_revoked y = v_revoked v).
    { destruct (revoke_one_spec _ _ _ _ E) as [->|(a & c & _ & _ & _ & X)]; auto.
      apply invalidate_spec in X. destruct X as (D & -> & _). apply drop_keys_revoked. }
    rewrite ER, orb_true_iff, beq_eq. split.
    + intros [[->|X]|(s' & X & ->)]; [right; exists s; cbn; auto|auto|right; exists s'; cbn; auto].
    + intros [X|(s' & [<-|X] & ->)]; [auto|auto|right; eauto].
Qed.

Lemma revoke_loop_removes : forall T aki l v v', Inv T v -> revoke_loop aki l v = VRet v' ->
  forall s a c, In s l -> v_serial v (serial_key aki s) = Some a -> hobj (v_heap v) a = Some (OCert c) ->
    c_serial c = s -> v_valid v' (c_ski c) = None.
Proof.
  intros T aki. induction l as [|s0 l IH]; intros v v' I H s a c IN SE HO CS; [destruct IN|].
  assert (H0 := H). rewrite revoke_loop_cons in H. vb H.
  assert (Y : Inv T y /\ same_base v y).
  { destruct (revoke_one_spec _ _ _ _ E) as [->|(x & z & _ & _ & _ & IV)].
    - split; [exact I|apply same_base_refl].
    - split; [eapply inv_invalidate; eauto|eapply same_base_invalidate; eauto]. }
  destruct Y as (IY & SB). assert (SB' := SB).
  destruct SB as (SH & _ & _ & SS & _).
  destruct IN as [->|IN].
  - assert (V1 : v_valid y (c_ski c) = None).
    { unfold revoke_one in E. rewrite SE in E. destruct (deref_of_hobj _ _ _ HO) as (r & D & RO).
      rewrite D in E. cbn [vbind] in E. rewrite RO in E. rewrite CS, Z.eqb_refl in E.
      apply invalidate_spec in E. destruct E as (DD & -> & B). apply drop_keys_valid. apply B. apply below_self. }
    destruct (v_valid v' (c_ski c)) as [x|] eqn:VX; auto.
    apply (shrink_revoke_loop _ _ _ _ H) in VX. cbn in VX. congruence.
  - apply (IH (put_revoked (serial_key aki s0) y) v') with (s := s) (a := a); auto.
    + now apply inv_put_revoked.
    + cbn. now rewrite SS.
    + cbn. now rewrite SH.
Qed.

(** Key identifiers of one length, as SHA-1 gives them, and no two known
    certificates of one issuer with the same serial number. *)
Definition same_length_ids (v : validator) (aki : bytes) : Prop :=
  forall c, known_cert v c -> length (c_aki c) = length aki.
Definition serials_unique (v : validator) : Prop :=
  forall c1 c2, known_cert v c1 -> known_cert v c2 ->
    c_aki c1 = c_aki c2 -> c_serial c1 = c_serial c2 -> c_ski c1 = c_ski c2.

Lemma valid_known : forall T v c, Inv T v -> valid_cert v c -> known_cert v c.
Proof. intros T v c I (a & V & C). exists a. split; auto. eapply inv_valid; eauto. Qed.

Lemma crl_removes : forall ops now v l v1 a s c,
  run ops (new_validator now) = VRet v -> add_crl l v = VRet (v1, (true, a)) ->
  In s (crl_serials l) -> c_aki c = crl_aki (crl_exts l) [] -> c_serial c = s -> ~ anchor ops c ->
  same_length_ids v (crl_aki (crl_exts l) []) -> serials_unique v ->
  ~ valid_cert v1 c.
Proof.
  intros ops now v l v1 a s c R H IN CA CS NA SL SU (x & VX & CX).
  destruct (inv_run _ _ _ R) as (I & _). apply hobj_cert_at in CX.
  assert (IX : indexed v).
  { apply (indexed_run (anchor ops) ops (new_validator now) v); auto; [apply inv_new|].
    unfold indexed. cbn. discriminate. }
  assert (V0 := shrink_add_crl _ _ _ _ _ H _ _ VX).
  assert (X := ext_add_crl _ _ _ _ _ H).
  destruct (inv_obj _ _ _ I _ _ (inv_valid _ _ _ I _ _ V0)) as (c2 & H2 & _).
  assert (c2 = c) by (pose proof (ext_obj _ _ X _ _ H2); congruence). subst c2.
  assert (VC : valid_cert v c) by (exists x; split; [exact V0|now apply hobj_cert_at]).
  assert (KC := valid_known _ _ _ I VC).
  destruct (inv_chain _ _ _ I _ _ _ V0 H2) as (_ & [T|(pa & pc & PV & PH & S & PP)]); [contradiction|].
  assert (SE := IX _ _ _ V0 H2). rewrite PP in SE. specialize (SE ltac:(discriminate)).
  unfold kin in SE. destruct (v_serial v (serial_key (c_aki c) (c_serial c))) as [y|] eqn:SEQ; [|discriminate].
  destruct (inv_serial _ _ _ I _ _ SEQ) as (c' & HC' & KE & OC').
  assert (KC' : known_cert v c') by (exists y; split; [exact OC'|now apply hobj_cert_at]).
  assert (EQ : c_aki c = c_aki c' /\ c_serial c = c_serial c').
  { unfold serial_key in KE. apply app_key_inj in KE; [|now rewrite (SL _ KC), (SL _ KC')].
    destruct KE as [K1 K2]. split; auto. now apply dec_inj. }
  destruct EQ as [EQ1 EQ2]. assert (ESKI := SU _ _ KC KC' EQ1 EQ2).
  apply add_crl_cases in H. destruct H as (-> & [[F _]|(_ & p & pc' & v3 & O & VV & HO & _ & RL & ->)]); [discriminate|].
  cbn [put_crl upd set_heap v_valid] in VX.
  assert (I2 : Inv (anchor ops) (put_validcrl (crl_aki (crl_exts l) []) (length (v_heap v))
    (alloc (new_res TCrl (v_objects v (crl_aki (crl_exts l) [])) None (OCrl l)) v))).
  { apply (inv_put_validcrl sig_ok _ _ _ _ l); auto.
    - cbn. rewrite hobj_alloc, Nat.eqb_refl. reflexivity.
    - now apply inv_crl_alloc. }
  assert (RR := revoke_loop_removes _ _ _ _ _ I2 RL s y c' IN).
  cbn [put_validcrl alloc set_heap v_serial v_heap] in RR.
  rewrite <- CA, <- CS in RR. specialize (RR SEQ).
  rewrite hobj_alloc in RR. pose proof (hobj_lt _ _ _ HC').
  destruct (Nat.eqb_spec y (length (v_heap v))); [lia|]. specialize (RR HC'). rewrite <- EQ2 in RR.
  specialize (RR eq_refl). rewrite <- ESKI in RR. congruence.
Qed.

Lemma crl_marks : forall l v v1 a, add_crl l v = VRet (v1, (true, a)) ->
  forall k, kin (v_revoked v1) k = true <->
    kin (v_revoked v) k = true \/ exists s, In s (crl_serials l) /\ k = serial_key (crl_aki (crl_exts l) []) s.
Proof.
  intros l v v1 a H. apply add_crl_cases in H.
  destruct H as (-> & [[F _]|(_ & p & pc' & v3 & O & VV & HO & _ & RL & ->)]); [discriminate|].
  intros k. cbn [put_crl upd set_heap v_revoked]. apply (revoke_loop_marks _ _ _ _ RL).
Qed.

Lemma run_crl : forall ops now v l v1 res, run ops (new_validator now) = VRet v -> add_crl l v = VRet (v1, res) ->
  run (ops ++ [DoCrl l]) (new_validator now) = VRet v1.
Proof.
  intros ops now v l v1 res R H. eapply run_inv2; eauto. cbn [Validator.run Validator.step].
  unfold vfst. rewrite H. reflexivity.
Qed.

Lemma anchor_crl : forall ops l c, anchor (ops ++ [DoCrl l]) c -> anchor ops c.
Proof.
  intros ops l c [G|(f & d & G & G')].
  - apply in_app_or in G. destruct G as [G|[G|[]]]; [now left|discriminate].
  - apply in_app_or in G. destruct G as [G|[G|[]]]; [right; eauto|discriminate].
Qed.

Lemma revoked_not_valid_later : forall ops now v l v1 a ops2 v2 c,
  run ops (new_validator now) = VRet v -> add_crl l v = VRet (v1, (true, a)) -> run ops2 v1 = VRet v2 ->
  c_aki c = crl_aki (crl_exts l) [] -> In (c_serial c) (crl_serials l) ->
  ~ anchor ops2 c -> ~ valid_cert v1 c -> ~ valid_cert v2 c.
Proof.
  intros ops now v l v1 a ops2 v2 c R H R2 CA CS NA NV V2. apply NV.
  assert (R1 := run_crl _ _ _ _ _ _ R H). destruct (inv_run _ _ _ R1) as (I1 & _).
  assert (I1' : Inv (anchor ((ops ++ [DoCrl l]) ++ ops2)) v1).
  { eapply inv_mono; [|exact I1]. intros; now apply anchor_app_l. }
  apply (marked_never_accepted _ ops2 v1 v2 I1'); auto.
  - intros; now apply anchor_app_r.
  - apply (crl_marks _ _ _ _ H). right. exists (c_serial c). rewrite <- CA. auto.
Qed.

(** * C05 *)
Lemma revoke_loop_only : forall T aki l v v', Inv T v -> revoke_loop aki l v = VRet v' ->
  forall k, v_valid v k <> None -> v_valid v' k = None ->
  exists c, known_cert v c /\ In (c_serial c) l /\ c_aki c = aki /\ below v (c_ski c) k.
Proof.
  intros T aki. induction l as [|s l IH]; intros v v' I H k V N; [inversion H; subst; congruence|].
  rewrite revoke_loop_cons in H. vb H.
  destruct (revoke_one_spec _ _ _ _ E) as [->|(a & c & SE & HO & CS & IV)].
  - destruct (IH (put_revoked (serial_key aki s) v) v' (inv_put_revoked sig_ok T _ _ I) H k V N) as (c & X1 & X2 & X3 & X4).
    exists c. split; [exact X1|split; [right; exact X2|split; [exact X3|]]].
    eapply below_ext; [| |exact X4]; reflexivity.
  - assert (I1 : Inv T y) by (eapply inv_invalidate; eauto).
    assert (SB := same_base_invalidate _ _ _ IV). destruct SB as (SH & SO & _).
    destruct (v_valid y k) as [b|] eqn:VY.
    + assert (VY' : v_valid (put_revoked (serial_key aki s) y) k <> None) by (cbn; congruence).
      destruct (IH (put_revoked (serial_key aki s) y) v' (inv_put_revoked sig_ok T _ _ I1) H k VY' N) as (c2 & X1 & X2 & X3 & X4).
      exists c2. split; [|split; [cbn [In]; auto|split; auto]].
      * destruct X1 as (z & Z1 & Z2). exists z. split; [rewrite <- SO; exact Z1|].
        apply hobj_cert_at. apply hobj_cert_at in Z2. rewrite <- SH. exact Z2.
      * eapply below_ext; [| |exact X4]; cbn; auto.
    + destruct (inv_serial _ _ _ I _ _ SE) as (c' & HC' & KE & OC').
      assert (c' = c) by congruence. subst c'. exists c. split; [|split; [|split]].
      * exists a. split; [exact OC'|now apply hobj_cert_at].
      * left. auto.
      * unfold serial_key in KE. rewrite CS in KE. apply app_inv_tail in KE. auto.
      * apply invalidate_spec in IV. destruct IV as (D & -> & B). apply B.
        destruct (in_dec beq_dec k D) as [|n]; auto. rewrite (proj2 (drop_keys_valid D v k) n) in VY. congruence.
Qed.

Lemma crl_only_own : forall ops now v l v1 a, run ops (new_validator now) = VRet v ->
  add_crl l v = VRet (v1, (true, a)) ->
  forall k, v_valid v k <> None -> v_valid v1 k = None ->
  exists c, known_cert v c /\ In (c_serial c) (crl_serials l) /\ c_aki c = crl_aki (crl_exts l) [] /\
            issuers v k (c_ski c).
Proof.
  intros ops now v l v1 a R H k V N. destruct (inv_run _ _ _ R) as (I & _).
  assert (I1 := inv_crl_alloc sig_ok _ v l (crl_aki (crl_exts l) []) I).
  apply add_crl_cases in H. destruct H as (-> & [[F _]|(_ & p & pc & v3 & O & VV & HO & _ & RL & ->)]); [discriminate|].
  cbn [put_crl upd set_heap v_valid] in N.
  set (w := put_validcrl _ _ _) in RL.
  assert (I2 : Inv (anchor ops) w).
  { unfold w. apply (inv_put_validcrl sig_ok _ _ _ _ l); auto. cbn. rewrite hobj_alloc, Nat.eqb_refl. reflexivity. }
  destruct (revoke_loop_only _ _ _ _ _ I2 RL k) as (c & X1 & X2 & X3 & X4); auto.
  exists c.
  assert (KK : forall c, known_cert w c -> known_cert v c).
  { intros c0 (z & Z1 & Z2). exists z. split; [exact Z1|]. apply hobj_cert_at. apply hobj_cert_at in Z2. cbn in Z2.
    rewrite hobj_alloc in Z2. destruct (Nat.eqb z (length (v_heap v))); [discriminate|exact Z2]. }
  split; [now apply KK|]. split; [exact X2|]. split; [exact X3|].
  apply (below_issuers _ _ _ _ I2) in X4. clear - X4 KK.
  induction X4; [apply iss_self|apply iss_up; auto].
Qed.

Lemma crl_rejected_nothing : forall l v v1 a, add_crl l v = VRet (v1, (false, a)) ->
  v_valid v1 = v_valid v /\ v_validroa v1 = v_validroa v /\ v_validcrl v1 = v_validcrl v /\
  v_validmft v1 = v_validmft v /\ v_objects v1 = v_objects v /\ v_revoked v1 = v_revoked v /\
  v_serial v1 = v_serial v /\ forall x, (x < length (v_heap v))%nat -> nth_error (v_heap v1) x = nth_error (v_heap v) x.
Proof.
  intros l v v1 a H. apply add_crl_cases in H.
  destruct H as (-> & [[_ ->]|(F & _)]); [|discriminate]. cbn. repeat split; auto.
  intros x L. now apply nth_error_app1.
Qed.

Lemma crl_other_not_marked : forall l v v1 a c, add_crl l v = VRet (v1, (true, a)) ->
  length (c_aki c) = length (crl_aki (crl_exts l) []) -> c_aki c <> crl_aki (crl_exts l) [] ->
  kin (v_revoked v1) (serial_key (c_aki c) (c_serial c)) = kin (v_revoked v) (serial_key (c_aki c) (c_serial c)).
Proof.
  intros l v v1 a c H L NE. apply eq_true_iff_eq. rewrite (crl_marks _ _ _ _ H). split; auto.
  intros [X|(s & _ & E)]; auto. unfold serial_key in E. apply app_key_inj in E; auto. destruct E. contradiction.
Qed.

(** * C52: whoever issued an accepted manifest is a valid CA *)
Lemma mft_issuer : forall ops now v f d v' ps a err, run ops (new_validator now) = VRet v -> f_type f = TMft ->
  add_resource f d v = VRet (v', (true, ps, a, err)) ->
  exists m p, dec_mft d = Some m /\ mft_inner m = true /\ in_window (mft_cert m) now /\
    chain sig_ok dec_cert ops v p /\ c_aki (mft_cert m) = c_ski p /\ sig_ok p (mft_cert m) = true /\
    kin (v_revoked v) (serial_key (c_aki (mft_cert m)) (c_serial (mft_cert m))) = false.
Proof.
  intros ops now v f d v' ps a err R FT H. unfold Validator.add_resource in H. rewrite FT in H.
  destruct (dec_mft d) as [m|] eqn:D; [|discriminate]. vb H. destruct y as (v1 & (((valid & paths) & oa) & e1)).
  assert (HV : valid = true) by (destruct oa; inversion H; reflexivity). subst valid. clear H. rename E into H.
  unfold Validator.add_mft in H. destruct (extract_path_mft (mft_files m)) as [fs|]; [|discriminate].
  vb H. destruct y as (v2 & (((vc & pc) & ca) & ec)). injection H as _ E2 _ _ _.
  apply andb_prop in E2. destruct E2 as (-> & MI).
  destruct (chain_of_valid _ _ _ R) as (T & CV).
  destruct (add_cert_cases _ _ _ _ _ _ _ _ _ E) as (_ & [(_ & F & _)|(_ & _ & ok & VC & VD & _)]); [discriminate|].
  symmetry in VD. apply andb_prop in VD. destruct VD as (_ & ->).
  unfold validate_cert in VC. destruct (time_ok (mft_cert m) (v_time v)) eqn:TO; cbn [negb] in VC; [|discriminate].
  destruct (v_valid v (c_aki (mft_cert m))) as [pa|] eqn:PV; [|discriminate].
  destruct (CV _ _ PV) as (p & (r & N & O) & K & C).
  vb VC. unfold deref in E0. rewrite N in E0. inversion E0; subst y. rewrite O in VC.
  destruct (sig_ok p (mft_cert m)) eqn:SG; cbn [negb] in VC; [|discriminate].
  destruct (kin (v_revoked v) _) eqn:RV; [discriminate|].
  assert (W : in_window (mft_cert m) now) by (unfold time_ok in TO; unfold in_window; lia).
  exists m, p. split; [reflexivity|]. split; [exact MI|]. split; [exact W|]. split; [exact C|].
  split; [now symmetry|]. split; [exact SG|exact RV].
Qed.
End Facts.
