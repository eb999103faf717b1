(** How an object becomes valid: only by passing ValidateCertificate. *)
From Coq Require Import Lia.
From Verif.Model Require Import Base NetIP CertRes Roa Str Tal Validator.
From Verif.Spec Require Import Trust.
From Verif.Proofs Require Import StrProofs HeapProofs Invalidate ValidatorInv ValidatorRun ValidatorMono.

Lemma deref_sim : forall h1 h2 a, hsim h1 h2 ->
  match deref h1 a, deref h2 a with
  | VRet r1, VRet r2 => r_obj r1 = r_obj r2 /\ r_parent r1 = r_parent r2
  | VPanic, VPanic => True
  | _, _ => False
  end.
Proof.
  intros h1 h2 a [L S]. destruct (S a) as (O & P & _). unfold hobj, hpar in *. unfold deref.
  destruct (nth_error h1 a), (nth_error h2 a); cbn in O; try discriminate; auto.
  inversion O. auto.
Qed.

Lemma ip_chain_sim : forall fuel h1 h2 valid key chain check inv, hsim h1 h2 ->
  ip_chain fuel h1 valid key chain check inv = ip_chain fuel h2 valid key chain check inv.
Proof.
  induction fuel as [|fuel IH]; intros h1 h2 valid key chain check inv S; destruct chain as [a|]; destruct check as [|i l]; try reflexivity.
  cbn [ip_chain]. destruct (valid key) as [u|]; [|reflexivity].
  pose proof (deref_sim h1 h2 u S) as DU. destruct (deref h1 u) as [r1| |], (deref h2 u) as [r2| |]; try tauto.
  cbn [vbind]. destruct DU as [-> _]. destruct (r_obj r2); try reflexivity.
  destruct (vgo (validate_ip_list (i :: l) (c_ips c))) as [[[x y] z]| |]; cbn [vbind]; try reflexivity.
  pose proof (deref_sim h1 h2 a S) as DA. destruct (deref h1 a) as [r3| |], (deref h2 a) as [r4| |]; try tauto; cbn [vbind].
  destruct DA as [_ ->]. now apply IH.
Qed.
Lemma as_chain_sim : forall fuel h1 h2 valid key chain check inv, hsim h1 h2 ->
  as_chain fuel h1 valid key chain check inv = as_chain fuel h2 valid key chain check inv.
Proof.
  induction fuel as [|fuel IH]; intros h1 h2 valid key chain check inv S; destruct chain as [a|]; destruct check as [|i l]; try reflexivity.
  cbn [as_chain]. destruct (valid key) as [u|]; [|reflexivity].
  pose proof (deref_sim h1 h2 u S) as DU. destruct (deref h1 u) as [r1| |], (deref h2 u) as [r2| |]; try tauto.
  cbn [vbind]. destruct DU as [-> _]. destruct (r_obj r2); try reflexivity.
  destruct (validate_as_list (i :: l) (c_asns c)) as [[x y] z].
  pose proof (deref_sim h1 h2 a S) as DA. destruct (deref h1 a) as [r3| |], (deref h2 a) as [r4| |]; try tauto; cbn [vbind].
  destruct DA as [_ ->]. now apply IH.
Qed.

Lemma validate_cert_sim : forall sig_ok c tr v1 v2, hsim (v_heap v1) (v_heap v2) ->
  v_valid v1 = v_valid v2 -> v_revoked v1 = v_revoked v2 -> v_time v1 = v_time v2 ->
  validate_cert sig_ok c tr v1 = validate_cert sig_ok c tr v2.
Proof.
  intros sig_ok c tr v1 v2 S E1 E2 E3. unfold validate_cert. rewrite E1, E2, E3.
  destruct (negb (time_ok c (v_time v2))); auto. destruct tr; auto.
  destruct (v_valid v2 (c_aki c)) as [pa|]; auto.
  pose proof (deref_sim _ _ pa S) as DA.
  destruct (deref (v_heap v1) pa) as [r1| |], (deref (v_heap v2) pa) as [r2| |]; try tauto; cbn [vbind]; auto.
  destruct DA as [-> ->]. destruct (r_obj r2); auto. destruct (negb (sig_ok c0 c)); auto.
  destruct (kin (v_revoked v2) (serial_key (c_aki c) (c_serial c))); auto.
  destruct (vgo (validate_ip_list (c_ips c) (c_ips c0))) as [[[x y] z]| |]; cbn [vbind]; auto.
  rewrite (proj1 S). rewrite (ip_chain_sim _ _ _ _ _ _ _ _ S).
  destruct (ip_chain (length (v_heap v2)) (v_heap v2) (v_valid v2) (c_aki c0) (r_parent r2) z y) as [[inv|]| |]; cbn [vbind]; auto.
  destruct (validate_as_list (c_asns c) (c_asns c0)) as [[x' y'] z'].
  now rewrite (as_chain_sim _ _ _ _ _ _ _ _ S).
Qed.

Section Accept.
Variable sig_ok : cert -> cert -> bool.
Variable crl_sig_ok : cert -> crl -> bool.
Variable dec_tal : bytes -> option tal.
Variable dec_cert : bytes -> option cert.
Variable dec_roa : bytes -> option roa.
Variable dec_mft : bytes -> option mft.
Variable dec_crl : bytes -> option crl.
Variable hex_sha1 : bytes -> bytes.

Notation Inv := (Inv sig_ok).
Notation add_cert := (add_cert sig_ok).
Notation add_roa := (add_roa sig_ok).
Notation add_mft := (add_mft sig_ok).
Notation add_crl := (add_crl crl_sig_ok).
Notation add_resource := (add_resource sig_ok crl_sig_ok dec_tal dec_cert dec_roa dec_mft dec_crl hex_sha1).
Notation step := (step sig_ok crl_sig_ok dec_tal dec_cert dec_roa dec_mft dec_crl hex_sha1).
Notation run := (run sig_ok crl_sig_ok dec_tal dec_cert dec_roa dec_mft dec_crl hex_sha1).

(** The certificate [c] was accepted in state [v], leading to [v']. *)
Record accepted (A : cert -> Prop) (v v' : validator) (k : bytes) (a : addr) (c : cert) : Prop := {
  acc_key : k = c_ski c;
  acc_addr : a = length (v_heap v);
  acc_new : v_objects v k = None;
  acc_obj : hobj (v_heap v') a = Some (OCert c);
  acc_par : hpar (v_heap v') a = v_objects v (c_aki c);
  acc_serial : v_objects v (c_aki c) <> None ->
    kin (v_serial v') (serial_key (c_aki c) (c_serial c)) = true;
  acc_ok : validate_cert sig_ok c false v = VRet true \/ A c }.

Definition new_valid (A : cert -> Prop) (v v' : validator) : Prop :=
  forall k a, v_valid v' k = Some a ->
    v_valid v k = Some a \/ exists c, accepted A v v' k a c.

Lemma new_valid_same : forall A v v', v_valid v' = v_valid v -> new_valid A v v'.
Proof. intros A v v' E k a H. left. now rewrite <- E. Qed.
Lemma new_valid_shrink : forall A v v', (forall k a, v_valid v' k = Some a -> v_valid v k = Some a) -> new_valid A v v'.
Proof. intros A v v' E k a H. left. auto. Qed.

(** Later changes that keep objects, parents, serial index. *)
Lemma new_valid_after : forall A v v1 v2, new_valid A v v1 -> v_valid v2 = v_valid v1 ->
  (forall a o, hobj (v_heap v1) a = Some o -> hobj (v_heap v2) a = Some o) ->
  (forall a, (a < length (v_heap v1))%nat -> hpar (v_heap v2) a = hpar (v_heap v1) a) ->
  v_serial v2 = v_serial v1 -> new_valid A v v2.
Proof.
  intros A v v1 v2 N E HO HP ES k a H. rewrite E in H. destruct (N _ _ H) as [X|(c & [X1 X2 X3 X4 X5 X6 X7])]; auto.
  right. exists c. constructor; auto.
  - rewrite HP; auto. now apply hobj_lt in X4.
  - rewrite ES. auto.
Qed.

Lemma new_valid_add_cert : forall (A : cert -> Prop) T v c tr v' res,
  Inv T v -> (tr = true -> A c) -> add_cert c tr v = VRet (v', res) -> new_valid A v v'.
Proof.
  intros A T v c tr v' [[[valid ps] a] err] I TA H.
  destruct (add_cert_cases _ _ _ _ _ _ _ _ _ H) as (-> & [C|C]).
  - destruct C as (_ & _ & _ & _ & ->). now apply new_valid_same.
  - destruct C as (K & _ & ok & VC & VD & _ & ->).
    assert (PL : forall p, v_objects v (c_aki c) = Some p -> (p < length (v_heap v))%nat).
    { intros p HP. destruct (inv_obj _ _ _ I _ _ HP) as (x & Y & _). now apply hobj_lt in Y. }
    destruct (store_views sig_ok c valid v PL) as (VL & VO & VP & VCH & VOB & VV & VS & _).
    destruct valid; [|apply new_valid_same; exact VV].
    intros k a HV. rewrite VV in HV. apply kset_some in HV. destruct HV as [[-> ->]|[_ HV]]; [|auto].
    right. exists c. constructor; auto.
    + unfold kin in K. destruct (v_objects v (c_ski c)); [discriminate|reflexivity].
    + rewrite VO, Nat.eqb_refl. reflexivity.
    + rewrite VP, Nat.eqb_refl. reflexivity.
    + intros NN. rewrite VS. unfold kin at 2. destruct (v_objects v (c_aki c)); [|congruence].
      cbn [andb]. now rewrite kin_kset, beq_refl.
    + symmetry in VD. apply andb_true_iff in VD. destruct VD as [_ ->]. destruct tr; auto.
Qed.

Lemma new_valid_pre : forall A v0 v v', hsim (v_heap v0) (v_heap v) -> v_valid v0 = v_valid v ->
  v_objects v0 = v_objects v -> v_revoked v0 = v_revoked v -> v_time v0 = v_time v ->
  new_valid A v0 v' -> new_valid A v v'.
Proof.
  intros A v0 v v' S E1 E2 E3 E4 N k a H. destruct (N _ _ H) as [X|(c & [X1 X2 X3 X4 X5 X6 X7])].
  - left. now rewrite <- E1.
  - right. exists c. rewrite E2 in *. constructor; auto.
    + rewrite X2. apply S.
    + destruct X7 as [X7|X7]; auto. left. rewrite <- X7. symmetry. now apply validate_cert_sim.
Qed.

Lemma check_tal_pre : forall f c v v', check_tal f c v = VRet (Some v') ->
  hsim (v_heap v') (v_heap v) /\ v_valid v' = v_valid v /\ v_objects v' = v_objects v /\
  v_revoked v' = v_revoked v /\ v_time v' = v_time v /\ v_serial v' = v_serial v.
Proof.
  intros f c v v' H. unfold check_tal in H.
  destruct (f_parent f) as [p|]; [|inversion H; subst; split; [apply hsim_refl|auto 10]].
  destruct (is_tal (f_type p)); [|inversion H; subst; split; [apply hsim_refl|auto 10]].
  destruct (v_tals v (f_path f)) as [a|]; [|inversion H; subst; split; [apply hsim_refl|auto 10]].
  vb H. destruct (r_obj y); try discriminate. vb H.
  destruct y0; inversion H; subst. split; [apply hsim_upd_meta, meta_tal|auto 10].
Qed.

Lemma shrink_invalidate : forall k v v', invalidate k v = VRet v' ->
  forall k' a, v_valid v' k' = Some a -> v_valid v k' = Some a.
Proof.
  intros k v v' H k' a V. apply invalidate_spec in H. destruct H as (D & -> & _).
  destruct (drop_keys_valid D v k') as [X Y]. destruct (in_dec beq_dec k' D) as [i|i].
  - rewrite (X i) in V. discriminate.
  - now rewrite <- (Y i).
Qed.
Lemma shrink_revoke_loop : forall aki l v v', revoke_loop aki l v = VRet v' ->
  forall k' a, v_valid v' k' = Some a -> v_valid v k' = Some a.
Proof.
  induction l as [|s l IH]; intros v v' H k' a V; [inversion H; subst; auto|].
  rewrite revoke_loop_cons in H. vb H. apply (IH _ _ H) in V. cbn in V.
  destruct (revoke_one_spec _ _ _ _ E) as [->|(x & c & _ & _ & _ & IV)]; auto.
  eapply shrink_invalidate; eauto.
Qed.

Lemma shrink_add_crl : forall l v v' res, add_crl l v = VRet (v', res) ->
  forall k' a, v_valid v' k' = Some a -> v_valid v k' = Some a.
Proof.
  intros l v v' [valid a] H k' b V. apply add_crl_cases in H.
  destruct H as (-> & [[_ ->]|(_ & p & pc & v3 & O & _ & HO & _ & R & ->)]); [exact V|].
  cbn in V. apply (shrink_revoke_loop _ _ _ _ R) in V. exact V.
Qed.

Lemma new_valid_add_roa : forall A T f r v v' res, Inv T v -> add_roa f r v = VRet (v', res) -> new_valid A v v'.
Proof.
  intros A T f r v v' res I H. unfold Validator.add_roa in H. vb H. destruct y as (v1 & ((va & ps) & a) & er).
  assert (N : new_valid A v v1) by (apply (new_valid_add_cert A T v _ _ _ _ I) in E; [auto|discriminate]).
  inversion H; subst v' res; clear H. eapply new_valid_after; [exact N| | | |].
  - destruct (va && validate_entries (roa_entries r) && roa_inner r); reflexivity.
  - intros x o HX. assert (HX2 : hobj (heap_upd (v_heap v1) a (fun y => with_type TRoaCer (with_file f y))) x = Some o).
    { rewrite <- HX. apply hsim_upd_meta, meta_type_file. }
    assert (hobj (v_heap (upd a (with_child (length (v_heap (upd a (fun x => with_type TRoaCer (with_file f x)) v1))))
              (alloc (new_res TRoa (Some a) f (ORoa r)) (upd a (fun x => with_type TRoaCer (with_file f x)) v1)))) x = Some o).
    { cbn. rewrite hobj_child, hobj_alloc. apply hobj_lt in HX2 as L.
      destruct (Nat.eqb_spec x (length (heap_upd (v_heap v1) a (fun y => with_type TRoaCer (with_file f y))))); [lia|exact HX2]. }
    destruct (va && validate_entries (roa_entries r) && roa_inner r); exact H.
  - intros x L.
    assert (hpar (v_heap (upd a (with_child (length (v_heap (upd a (fun x => with_type TRoaCer (with_file f x)) v1))))
              (alloc (new_res TRoa (Some a) f (ORoa r)) (upd a (fun x => with_type TRoaCer (with_file f x)) v1)))) x = hpar (v_heap v1) x).
    { cbn. rewrite hpar_child, hpar_alloc. rewrite length_heap_upd.
      destruct (Nat.eqb_spec x (length (v_heap v1))); [lia|]. apply hsim_upd_meta, meta_type_file. }
    destruct (va && validate_entries (roa_entries r) && roa_inner r); exact H.
  - destruct (va && validate_entries (roa_entries r) && roa_inner r); reflexivity.
Qed.

Lemma new_valid_add_mft : forall A T f r v v' res, Inv T v -> add_mft f r v = VRet (v', res) -> new_valid A v v'.
Proof.
  intros A T f r v v' res I H. unfold Validator.add_mft in H.
  destruct (extract_path_mft (mft_files r)); [|inversion H; subst; now apply new_valid_same].
  vb H. destruct y as (v1 & ((va & ps) & a) & er).
  assert (N : new_valid A v v1) by (apply (new_valid_add_cert A T v _ _ _ _ I) in E; [auto|discriminate]).
  inversion H; subst v' res; clear H. eapply new_valid_after; [exact N| | | |].
  - destruct (va && mft_inner r); reflexivity.
  - intros x o HX. assert (HX2 : hobj (heap_upd (v_heap v1) a (fun y => with_type TMftCer (with_file f y))) x = Some o).
    { rewrite <- HX. apply hsim_upd_meta, meta_type_file. }
    assert (hobj (v_heap (upd a (with_child (length (v_heap (upd a (fun x => with_type TMftCer (with_file f x)) v1))))
              (alloc (new_res TMft (Some a) f (OMft r)) (upd a (fun x => with_type TMftCer (with_file f x)) v1)))) x = Some o).
    { cbn. rewrite hobj_child, hobj_alloc. apply hobj_lt in HX2 as L.
      destruct (Nat.eqb_spec x (length (heap_upd (v_heap v1) a (fun y => with_type TMftCer (with_file f y))))); [lia|exact HX2]. }
    destruct (va && mft_inner r); exact H.
  - intros x L.
    assert (hpar (v_heap (upd a (with_child (length (v_heap (upd a (fun x => with_type TMftCer (with_file f x)) v1))))
              (alloc (new_res TMft (Some a) f (OMft r)) (upd a (fun x => with_type TMftCer (with_file f x)) v1)))) x = hpar (v_heap v1) x).
    { cbn. rewrite hpar_child, hpar_alloc. rewrite length_heap_upd.
      destruct (Nat.eqb_spec x (length (v_heap v1))); [lia|]. apply hsim_upd_meta, meta_type_file. }
    destruct (va && mft_inner r); exact H.
  - destruct (va && mft_inner r); reflexivity.
Qed.

Lemma new_valid_put_path_meta : forall A v v1 k a f x, meta f -> new_valid A v v1 ->
  new_valid A v (put_path k x (upd a f v1)).
Proof.
  intros A v v1 k a f x M N. eapply new_valid_after; [exact N|reflexivity| | |reflexivity].
  - intros b o H. cbn. rewrite <- H. now apply hsim_upd_meta.
  - intros b L. cbn. now apply hsim_upd_meta.
Qed.

Lemma new_valid_step : forall (T : cert -> Prop) o v v', Inv T v ->
  step o v = VRet v' -> new_valid (given_as_anchor dec_cert [o]) v v'.
Proof.
  intros T o v v' I H. destruct o; cbn [Validator.step] in H.
  - apply vfst_ret in H. destruct H as (res & H). unfold Validator.add_resource in H.
    destruct (f_type f) eqn:FT; try (inversion H; subst; now apply new_valid_same).
    + destruct (dec_cert data) as [c|] eqn:DC; [|inversion H; subst; now apply new_valid_same]. vb H.
      destruct y as [v1|]; [|inversion H; subst; now apply new_valid_same]. vb H. destruct y as (v2 & ((va & ps) & a) & er).
      destruct (inv_check_tal sig_ok T _ _ _ _ I E) as (I1 & _).
      destruct (check_tal_pre _ _ _ _ E) as (S & E1 & E2 & E3 & E4 & E5).
      inversion H; subst. apply new_valid_put_path_meta; [apply meta_file_type|].
      apply (new_valid_pre _ v1); auto. eapply new_valid_add_cert; [exact I1| |exact E0].
      intros TR. right. exists f, data. cbn. auto.
    + destruct (dec_mft data) as [m|]; [|inversion H; subst; now apply new_valid_same]. vb H. destruct y as (v1 & ((va & ps) & oa) & er).
      apply (new_valid_add_mft (given_as_anchor dec_cert [DoResource f data]) T) in E; auto.
      destruct oa as [a|]; inversion H; subst; auto. apply new_valid_put_path_meta; auto. apply meta_file.
    + destruct (dec_roa data) as [m|]; [|inversion H; subst; now apply new_valid_same]. vb H. destruct y as (v1 & (va & a) & er).
      apply (new_valid_add_roa (given_as_anchor dec_cert [DoResource f data]) T) in E; auto.
      inversion H; subst; auto. apply new_valid_put_path_meta; auto. apply meta_file.
    + destruct (dec_crl data) as [l|]; [|inversion H; subst; now apply new_valid_same]. vb H. destruct y as (v1 & va & a).
      assert (S := shrink_add_crl _ _ _ _ E). vb H. vb H. destruct (beq y y0); inversion H; subst; apply new_valid_shrink; exact S.
    + destruct (dec_tal data) as [t|]; [|inversion H; subst; now apply new_valid_same].
      inversion H; subst. now apply new_valid_same.
  - inversion H; subst. now apply new_valid_same.
  - apply vfst_ret in H. destruct H as (res & H). eapply new_valid_add_cert; eauto. intros ->. left. left. reflexivity.
  - apply vfst_ret in H. destruct H as (res & H). eapply new_valid_add_roa; eauto.
  - apply vfst_ret in H. destruct H as (res & H). eapply new_valid_add_mft; eauto.
  - apply vfst_ret in H. destruct H as (res & H). apply new_valid_shrink. eapply shrink_add_crl; eauto.
  - apply new_valid_shrink. eapply shrink_invalidate; eauto.
Qed.
End Accept.
