(** The structural invariant of the validator and its preservation. *)
From Coq Require Import Lia.
From Verif.Model Require Import Base NetIP CertRes Roa Str Tal Validator.
From Verif.Spec Require Import Trust.
From Verif.Proofs Require Import StrProofs HeapProofs Invalidate.

Section Inv.
Variable sig_ok : cert -> cert -> bool.

Record Inv (T : cert -> Prop) (v : validator) : Prop := {
  inv_obj : forall k a, v_objects v k = Some a ->
    exists c, hobj (v_heap v) a = Some (OCert c) /\ c_ski c = k;
  inv_valid : forall k a, v_valid v k = Some a -> v_objects v k = Some a;
  inv_par : forall a p, hpar (v_heap v) a = Some p -> (p < a)%nat;
  inv_chlt : forall a b, In b (hch (v_heap v) a) -> (a < b < length (v_heap v))%nat;
  inv_chain : forall k a c, v_valid v k = Some a -> hobj (v_heap v) a = Some (OCert c) ->
    in_window c (v_time v) /\
    (T c \/ exists pa pc, v_valid v (c_aki c) = Some pa /\ hobj (v_heap v) pa = Some (OCert pc) /\
              sig_ok pc c = true /\ hpar (v_heap v) a = Some pa);
  inv_link : forall k a c p, v_valid v k = Some a -> hobj (v_heap v) a = Some (OCert c) ->
    hpar (v_heap v) a = Some p -> In a (hch (v_heap v) p) /\ v_objects v (c_aki c) = Some p;
  inv_chcert : forall p b c, In b (hch (v_heap v) p) -> hobj (v_heap v) b = Some (OCert c) ->
    v_objects v (c_aki c) = Some p /\ v_objects v (c_ski c) = Some b /\ hpar (v_heap v) b = Some p;
  inv_chroa : forall p b x, In b (hch (v_heap v) p) -> hobj (v_heap v) b = Some (ORoa x) ->
    hobj (v_heap v) p = Some (OCert (roa_cert x));
  inv_chmft : forall p b x, In b (hch (v_heap v) p) -> hobj (v_heap v) b = Some (OMft x) ->
    hobj (v_heap v) p = Some (OCert (mft_cert x));
  inv_vroa : forall k b, v_validroa v k = Some b ->
    exists x a, hobj (v_heap v) b = Some (ORoa x) /\ c_ski (roa_cert x) = k /\
      v_valid v k = Some a /\ hobj (v_heap v) a = Some (OCert (roa_cert x)) /\
      validate_entries (roa_entries x) = true /\ roa_inner x = true;
  inv_vcrl : forall k b, v_validcrl v k = Some b ->
    v_valid v k <> None /\ exists l, hobj (v_heap v) b = Some (OCrl l) /\ crl_aki (crl_exts l) [] = k;
  inv_vmft : forall k b, v_validmft v k = Some b ->
    exists x a, hobj (v_heap v) b = Some (OMft x) /\ c_ski (mft_cert x) = k /\
      v_objects v k = Some a /\ hobj (v_heap v) a = Some (OCert (mft_cert x)) /\ mft_inner x = true;
  inv_serial : forall k a, v_serial v k = Some a ->
    exists c, hobj (v_heap v) a = Some (OCert c) /\ k = serial_key (c_aki c) (c_serial c) /\
      v_objects v (c_ski c) = Some a;
  inv_tal : forall k a, v_tals v k = Some a -> exists t, hobj (v_heap v) a = Some (OTal t) }.

Lemma inv_new : forall T now, Inv T (new_validator now).
Proof.
  intros. constructor; cbn; try discriminate; unfold hpar, hch; intros;
    repeat match goal with H : context [nth_error [] ?a] |- _ => destruct a; cbn in H end;
    try discriminate; try contradiction.
Qed.

Lemma inv_mono : forall (T T' : cert -> Prop) v, (forall c, T c -> T' c) -> Inv T v -> Inv T' v.
Proof.
  intros T T' v M [? ? ? ? CH ? ? ? ? ? ? ? ? ?]. constructor; auto.
  intros k a c V O. destruct (CH k a c V O) as (W & [X|X]); auto.
Qed.

(** Changes that the invariant does not see. *)
Lemma inv_sim : forall T v v',
  hsim (v_heap v') (v_heap v) ->
  v_objects v' = v_objects v -> v_valid v' = v_valid v -> v_time v' = v_time v ->
  v_validroa v' = v_validroa v -> v_validcrl v' = v_validcrl v -> v_validmft v' = v_validmft v ->
  v_serial v' = v_serial v -> v_tals v' = v_tals v ->
  Inv T v -> Inv T v'.
Proof.
  intros T v v' [HL HS] E1 E2 E3 E4 E5 E6 E7 E8 I. destruct I.
  assert (HO : forall a, hobj (v_heap v') a = hobj (v_heap v) a) by (intros a; apply HS).
  assert (HP : forall a, hpar (v_heap v') a = hpar (v_heap v) a) by (intros a; apply HS).
  assert (HC : forall a, hch (v_heap v') a = hch (v_heap v) a) by (intros a; apply HS).
  constructor; rewrite ?E1, ?E2, ?E3, ?E4, ?E5, ?E6, ?E7, ?E8, ?HL.
  - intros k a. rewrite HO. auto.
  - auto.
  - intros a p. rewrite HP. auto.
  - intros a b. rewrite HC. auto.
  - intros k a c V. rewrite HO, HP. intros O. destruct (inv_chain0 _ _ _ V O) as (W & [X|(pa & pc & X)]); auto.
    split; auto. right. exists pa, pc. rewrite HO. exact X.
  - intros k a c p. rewrite HO, HP, HC. eauto.
  - intros p b c. rewrite HO, HP, HC. eauto.
  - intros p b x. rewrite !HO, HC. eauto.
  - intros p b x. rewrite !HO, HC. eauto.
  - intros k b V. destruct (inv_vroa0 _ _ V) as (x & a & X). exists x, a. rewrite !HO. exact X.
  - intros k b V. destruct (inv_vcrl0 _ _ V) as (X & l & Y). split; auto. exists l. rewrite HO. exact Y.
  - intros k b V. destruct (inv_vmft0 _ _ V) as (x & a & X). exists x, a. rewrite !HO. exact X.
  - intros k a V. destruct (inv_serial0 _ _ V) as (c & X). exists c. rewrite HO. exact X.
  - intros k a V. destruct (inv_tal0 _ _ V) as (t & X). exists t. rewrite HO. exact X.
Qed.

Lemma inv_upd_meta : forall T v a f, meta f -> Inv T v -> Inv T (upd a f v).
Proof.
  intros T v a f M I. apply (inv_sim T v); auto; cbn. now apply hsim_upd_meta.
Qed.

Lemma meta_file : forall f, meta (with_file f).
Proof. intros f r. auto. Qed.
Lemma meta_tal : meta with_talvalid.
Proof. intros r. auto. Qed.
Lemma meta_type_file : forall t f, meta (fun x => with_type t (with_file f x)).
Proof. intros t f r. auto. Qed.
Lemma meta_file_type : forall t f, meta (fun x => with_file f (with_type t x)).
Proof. intros t f r. auto. Qed.

(** A fresh resource without children. *)
Lemma inv_alloc : forall T v r,
  r_childs r = [] -> (forall p, r_parent r = Some p -> (p < length (v_heap v))%nat) ->
  Inv T v -> Inv T (alloc r v).
Proof.
  intros T v r RC RP I. destruct I.
  assert (HOK : forall a o, hobj (v_heap v) a = Some o -> hobj (v_heap v ++ [r]) a = Some o).
  { intros a o H. rewrite hobj_alloc. pose proof (hobj_lt _ _ _ H).
    destruct (Nat.eqb_spec a (length (v_heap v))); [lia|exact H]. }
  assert (HCO : forall a o, (a < length (v_heap v))%nat -> hobj (v_heap v ++ [r]) a = Some o -> hobj (v_heap v) a = Some o).
  { intros a o L H. rewrite hobj_alloc in H. destruct (Nat.eqb_spec a (length (v_heap v))); [lia|exact H]. }
  assert (HPO : forall a, (a < length (v_heap v))%nat -> hpar (v_heap v ++ [r]) a = hpar (v_heap v) a).
  { intros a L. rewrite hpar_alloc. destruct (Nat.eqb_spec a (length (v_heap v))); [lia|reflexivity]. }
  assert (HCH : forall a b, In b (hch (v_heap v ++ [r]) a) -> In b (hch (v_heap v) a)).
  { intros a b H. rewrite hch_alloc in H. destruct (Nat.eqb_spec a (length (v_heap v))); [|exact H].
    rewrite RC in H. destruct H. }
  assert (HCH' : forall a b, In b (hch (v_heap v) a) -> In b (hch (v_heap v ++ [r]) a)).
  { intros a b H. rewrite hch_alloc. pose proof (hch_lt _ _ _ H).
    destruct (Nat.eqb_spec a (length (v_heap v))); [lia|exact H]. }
  assert (VLT : forall k a, v_valid v k = Some a -> (a < length (v_heap v))%nat).
  { intros k a H. apply inv_valid0 in H. apply inv_obj0 in H. destruct H as (c & H & _). now apply hobj_lt in H. }
  constructor; cbn [alloc set_heap v_heap v_objects v_valid v_time v_validroa v_validcrl v_validmft v_serial v_tals].
  - intros k a H. destruct (inv_obj0 _ _ H) as (c & X & Y). exists c. split; auto.
  - auto.
  - intros a p H. rewrite hpar_alloc in H. destruct (Nat.eqb_spec a (length (v_heap v))); [|eauto].
    subst. auto.
  - intros a b H. apply HCH in H. apply inv_chlt0 in H. rewrite app_length. cbn. lia.
  - intros k a c V O. assert (L := VLT _ _ V). apply HCO in O; auto.
    destruct (inv_chain0 _ _ _ V O) as (W & [X|(pa & pc & X1 & X2 & X3 & X4)]); auto.
    split; auto. right. exists pa, pc. rewrite HPO by auto. repeat split; auto.
  - intros k a c p V O P. assert (L := VLT _ _ V). apply HCO in O; auto. rewrite HPO in P by auto.
    destruct (inv_link0 _ _ _ _ V O P). auto.
  - intros p b c H O. apply HCH in H. assert (L := inv_chlt0 _ _ H). apply HCO in O; [|lia].
    rewrite HPO by lia. eauto.
  - intros p b x H O. apply HCH in H. assert (L := inv_chlt0 _ _ H). apply HCO in O; [|lia]. eauto.
  - intros p b x H O. apply HCH in H. assert (L := inv_chlt0 _ _ H). apply HCO in O; [|lia]. eauto.
  - intros k b V. destruct (inv_vroa0 _ _ V) as (x & a & X1 & X2 & X3 & X4 & X5). exists x, a. auto 10.
  - intros k b V. destruct (inv_vcrl0 _ _ V) as (X & l & Y & Z). split; auto. exists l. auto.
  - intros k b V. destruct (inv_vmft0 _ _ V) as (x & a & X1 & X2 & X3 & X4 & X5). exists x, a. auto 10.
  - intros k a V. destruct (inv_serial0 _ _ V) as (c & X & Y). exists c. auto.
  - intros k a V. destruct (inv_tal0 _ _ V) as (t & X). exists t. auto.
Qed.

(** Linking a ROA, manifest or CRL below a resource. *)
Definition may_link (h : list resource) (p b : addr) : Prop :=
  (p < b)%nat /\
  ((exists x, hobj h b = Some (ORoa x) /\ hobj h p = Some (OCert (roa_cert x))) \/
   (exists x, hobj h b = Some (OMft x) /\ hobj h p = Some (OCert (mft_cert x))) \/
   (exists l, hobj h b = Some (OCrl l))).

Lemma inv_add_link : forall T v p b, may_link (v_heap v) p b -> Inv T v -> Inv T (upd p (with_child b) v).
Proof.
  intros T v p b (LT & M) I. destruct I.
  assert (LB : (b < length (v_heap v))%nat).
  { destruct M as [(x & H & _)|[(x & H & _)|(l & H)]]; now apply hobj_lt in H. }
  assert (NC : forall c, hobj (v_heap v) b <> Some (OCert c)).
  { intros c E. destruct M as [(x & H & _)|[(x & H & _)|(l & H)]]; congruence. }
  assert (HO : forall a, hobj (heap_upd (v_heap v) p (with_child b)) a = hobj (v_heap v) a) by (intros; apply hobj_child).
  assert (HP : forall a, hpar (heap_upd (v_heap v) p (with_child b)) a = hpar (v_heap v) a) by (intros; apply hpar_child).
  assert (HC : forall a x, In x (hch (heap_upd (v_heap v) p (with_child b)) a) <->
             In x (hch (v_heap v) a) \/ (a = p /\ x = b)).
  { intros a x. rewrite hch_child by lia. destruct (Nat.eqb_spec a p).
    - subst. rewrite in_app_iff. cbn. intuition.
    - intuition. }
  constructor; cbn [upd set_heap v_heap v_objects v_valid v_time v_validroa v_validcrl v_validmft v_serial v_tals];
    rewrite ?length_heap_upd.
  - intros k a. rewrite HO. auto.
  - auto.
  - intros a q. rewrite HP. auto.
  - intros a x H. apply HC in H. destruct H as [H|[-> ->]]; [auto|lia].
  - intros k a c V. rewrite HO, HP. intros O. destruct (inv_chain0 _ _ _ V O) as (W & [X|(pa & pc & X)]); auto.
    split; auto. right. exists pa, pc. rewrite HO. exact X.
  - intros k a c q. rewrite HO, HP, HC. intros V O P. destruct (inv_link0 _ _ _ _ V O P). auto.
  - intros q x c H. rewrite HO, HP. intros O. apply HC in H. destruct H as [H|[-> ->]]; [eauto|].
    exfalso. apply (NC c). exact O.
  - intros q y x H. rewrite !HO. intros O. apply HC in H. destruct H as [H|[-> ->]]; [eauto|].
    destruct M as [(x' & H & H')|[(x' & H & _)|(l & H)]]; congruence.
  - intros q y x H. rewrite !HO. intros O. apply HC in H. destruct H as [H|[-> ->]]; [eauto|].
    destruct M as [(x' & H & _)|[(x' & H & H')|(l & H)]]; congruence.
  - intros k x V. destruct (inv_vroa0 _ _ V) as (y & a & X). exists y, a. rewrite !HO. exact X.
  - intros k x V. destruct (inv_vcrl0 _ _ V) as (X & l & Y). split; auto. exists l. rewrite HO. exact Y.
  - intros k x V. destruct (inv_vmft0 _ _ V) as (y & a & X). exists y, a. rewrite !HO. exact X.
  - intros k a V. destruct (inv_serial0 _ _ V) as (c & X). exists c. rewrite HO. exact X.
  - intros k a V. destruct (inv_tal0 _ _ V) as (t & X). exists t. rewrite HO. exact X.
Qed.

Lemma inv_put_tal : forall T v k a t, hobj (v_heap v) a = Some (OTal t) -> Inv T v -> Inv T (put_tal k a v).
Proof.
  intros T v k a t H I. destruct I. constructor; auto.
  intros k' a' E. apply kset_some in E. destruct E as [[-> ->]|[_ E]]; eauto.
Qed.
Lemma inv_put_validroa : forall T v k b x a,
  hobj (v_heap v) b = Some (ORoa x) -> c_ski (roa_cert x) = k -> v_valid v k = Some a ->
  hobj (v_heap v) a = Some (OCert (roa_cert x)) ->
  validate_entries (roa_entries x) = true -> roa_inner x = true ->
  Inv T v -> Inv T (put_validroa k b v).
Proof.
  intros T v k b x a H1 H2 H3 H4 H5 H6 I. destruct I. constructor; auto.
  intros k' b' E. apply kset_some in E. destruct E as [[-> ->]|[_ E]]; [|exact (inv_vroa0 _ _ E)].
  exists x, a. auto 10.
Qed.
Lemma inv_put_validcrl : forall T v k b l,
  hobj (v_heap v) b = Some (OCrl l) -> crl_aki (crl_exts l) [] = k -> v_valid v k <> None ->
  Inv T v -> Inv T (put_validcrl k b v).
Proof.
  intros T v k b l H1 H2 H3 I. destruct I. constructor; auto.
  intros k' b' E. apply kset_some in E. destruct E as [[-> ->]|[_ E]]; [|exact (inv_vcrl0 _ _ E)].
  split; eauto.
Qed.
Lemma inv_put_validmft : forall T v k b x a,
  hobj (v_heap v) b = Some (OMft x) -> c_ski (mft_cert x) = k -> v_objects v k = Some a ->
  hobj (v_heap v) a = Some (OCert (mft_cert x)) -> mft_inner x = true ->
  Inv T v -> Inv T (put_validmft k b v).
Proof.
  intros T v k b x a H1 H2 H3 H4 H5 I. destruct I. constructor; auto.
  intros k' b' E. apply kset_some in E. destruct E as [[-> ->]|[_ E]]; [|exact (inv_vmft0 _ _ E)].
  exists x, a. auto 10.
Qed.
Lemma inv_put_path : forall T v k a, Inv T v -> Inv T (put_path k a v).
Proof. intros. apply (inv_sim T v); auto. apply hsim_refl. Qed.
Lemma inv_put_roa : forall T v k a, Inv T v -> Inv T (put_roa k a v).
Proof. intros. apply (inv_sim T v); auto. apply hsim_refl. Qed.
Lemma inv_put_crl : forall T v k a, Inv T v -> Inv T (put_crl k a v).
Proof. intros. apply (inv_sim T v); auto. apply hsim_refl. Qed.
Lemma inv_put_mft : forall T v k a, Inv T v -> Inv T (put_mft k a v).
Proof. intros. apply (inv_sim T v); auto. apply hsim_refl. Qed.
Lemma inv_put_revoked : forall T v k, Inv T v -> Inv T (put_revoked k v).
Proof. intros. apply (inv_sim T v); auto. apply hsim_refl. Qed.

Lemma child_key_hch : forall v k a b c,
  v_objects v k = Some a -> In b (hch (v_heap v) a) -> hobj (v_heap v) b = Some (OCert c) ->
  child_key v k (c_ski c).
Proof.
  intros v k a b c O H HB. unfold hch in H. unfold hobj in HB.
  destruct (nth_error (v_heap v) a) as [r|] eqn:N; [|destruct H].
  destruct (nth_error (v_heap v) b) as [rb|] eqn:NB; [|discriminate].
  cbn in HB. inversion HB as [HO]. exists a, r, b, rb. rewrite HO. auto.
Qed.

(** Removing a set of keys closed under the child relation. *)
Lemma inv_drop : forall T v D,
  (forall k k', In k D -> child_key v k k' -> In k' D) -> Inv T v -> Inv T (drop_keys D v).
Proof.
  intros T v D CL I.
  assert (VS : forall k a, v_valid (drop_keys D v) k = Some a -> ~ In k D /\ v_valid v k = Some a).
  { intros k a H. destruct (drop_keys_valid D v k) as [X Y].
    destruct (in_dec beq_dec k D) as [Z|Z]; [rewrite X in H by auto; discriminate|].
    rewrite Y in H by auto. auto. }
  assert (VS' : forall k, ~ In k D -> v_valid (drop_keys D v) k = v_valid v k).
  { intros k H. now apply drop_keys_valid. }
  pose proof I as I0. destruct I.
  constructor; rewrite ?drop_keys_heap, ?drop_keys_objects, ?drop_keys_time, ?drop_keys_validmft, ?drop_keys_serial, ?drop_keys_tals; auto.
  - intros k a H. apply VS in H. apply inv_valid0. tauto.
  - intros k a c H O. apply VS in H. destruct H as [ND H].
    destruct (inv_chain0 _ _ _ H O) as (W & [X|(pa & pc & X1 & X2 & X3 & X4)]); auto.
    split; auto. right. exists pa, pc. repeat split; auto.
    rewrite VS'; auto. intros IN. apply ND.
    destruct (inv_link0 _ _ _ _ H O X4) as [L1 L2].
    destruct (inv_obj0 _ _ (inv_valid0 _ _ H)) as (c' & O' & E). rewrite O in O'. inversion O'; subst c'.
    rewrite <- E. apply (CL (c_aki c)); auto. now apply (child_key_hch _ _ pa a).
  - intros k a c p H. apply VS in H. destruct H as [_ H]. eauto.
  - intros k b H.
    destruct (drop_keys_validroa D v k) as [X Y].
    destruct (in_dec beq_dec k D) as [Z|Z]; [rewrite X in H by auto; discriminate|].
    rewrite Y in H by auto. rewrite VS' by auto. auto.
  - intros k b H.
    destruct (drop_keys_validcrl D v k) as [X Y].
    destruct (in_dec beq_dec k D) as [Z|Z]; [rewrite X in H by auto; discriminate|].
    rewrite Y in H by auto. rewrite VS' by auto. auto.
Qed.

Lemma inv_invalidate : forall T v k v', Inv T v -> invalidate k v = VRet v' -> Inv T v'.
Proof.
  intros T v k v' I H. apply invalidate_spec in H. destruct H as (D & -> & B).
  apply inv_drop; auto. intros k1 k2 H C. apply B. apply B in H. now apply (below_child _ _ k1).
Qed.

Lemma inv_invalidate_total : forall T v k, Inv T v -> exists v', invalidate k v = VRet v'.
Proof.
  intros T v k I. apply invalidate_total; [exact (inv_obj _ _ I)|].
  intros a b H. apply (inv_chlt _ _ I) in H. lia.
Qed.

(** ValidateCertificate accepting an ordinary certificate. *)
Lemma validate_cert_true : forall c v, validate_cert sig_ok c false v = VRet true ->
  in_window c (v_time v) /\
  exists pa pc, v_valid v (c_aki c) = Some pa /\ hobj (v_heap v) pa = Some (OCert pc) /\
    sig_ok pc c = true /\ kin (v_revoked v) (serial_key (c_aki c) (c_serial c)) = false.
Proof.
  intros c v H. unfold validate_cert in H.
  destruct (time_ok c (v_time v)) eqn:TO; cbn [negb] in H; [|discriminate].
  split. { unfold time_ok in TO. apply andb_true_iff in TO. destruct TO as [T1 T2].
    rewrite negb_true_iff, Z.ltb_ge in T1, T2. unfold in_window. lia. }
  destruct (v_valid v (c_aki c)) as [pa|] eqn:V; [|discriminate].
  destruct (deref (v_heap v) pa) as [pr| |] eqn:D; cbn [vbind] in H; try discriminate.
  apply deref_hobj in D. destruct D as (HO & _).
  destruct (r_obj pr) as [pc| | | |] eqn:O; try discriminate.
  destruct (sig_ok pc c) eqn:S; cbn [negb] in H; [|discriminate].
  destruct (kin (v_revoked v) (serial_key (c_aki c) (c_serial c))) eqn:R; [discriminate|].
  exists pa, pc. auto.
Qed.

Lemma validate_cert_window : forall c tr v, validate_cert sig_ok c tr v = VRet true ->
  in_window c (v_time v).
Proof.
  intros c tr v H. destruct tr; [|now apply validate_cert_true in H].
  unfold validate_cert in H.
  destruct (time_ok c (v_time v)) eqn:TO; cbn [negb] in H; [|discriminate].
  unfold time_ok in TO. apply andb_true_iff in TO. destruct TO as [T1 T2].
  rewrite negb_true_iff, Z.ltb_ge in T1, T2. unfold in_window. lia.
Qed.

(** The state after storing a new certificate. *)
Definition store_cert (c : cert) (valid : bool) (v : validator) : validator :=
  let a := length (v_heap v) in
  let parent := v_objects v (c_aki c) in
  let v1 := alloc (new_res TUnknown parent None (OCert c)) v in
  let v2 := match parent with
            | Some p => if valid then put_serial (serial_key (c_aki c) (c_serial c)) a (upd p (with_child a) v1)
                        else v1
            | None => v1
            end in
  put_object (c_ski c) a (if valid then put_valid (c_ski c) a v2 else v2).

Lemma add_cert_cases : forall c tr v v' valid ps a err,
  add_cert sig_ok c tr v = VRet (v', (valid, ps, a, err)) ->
  a = length (v_heap v) /\
  ((kin (v_objects v) (c_ski c) = true /\ valid = false /\ err = true /\ ps = [] /\
    v' = alloc (new_res TUnknown None None (OCert c)) v) \/
   (kin (v_objects v) (c_ski c) = false /\ ps = extract_path_cert c /\
    exists ok, validate_cert sig_ok c tr v = VRet ok /\
      valid = (kin (v_valid v) (c_aki c) || tr) && ok /\ err = negb ok /\
      v' = store_cert c valid v)).
Proof.
  intros c tr v v' valid ps a err H. unfold add_cert in H.
  destruct (kin (v_objects v) (c_ski c)) eqn:K.
  - inversion H; subst. auto 10.
  - destruct (validate_cert sig_ok c tr v) as [ok| |] eqn:E; cbn [vbind] in H; try discriminate.
    inversion H; subst. split; auto. right. repeat split; auto. exists ok. auto.
Qed.

(** Views of the stored state. *)
Lemma store_views : forall c valid v,
  (forall p, v_objects v (c_aki c) = Some p -> (p < length (v_heap v))%nat) ->
  let v' := store_cert c valid v in
  let a := length (v_heap v) in
  length (v_heap v') = S a /\
  (forall x, hobj (v_heap v') x = if Nat.eqb x a then Some (OCert c) else hobj (v_heap v) x) /\
  (forall x, hpar (v_heap v') x = if Nat.eqb x a then v_objects v (c_aki c) else hpar (v_heap v) x) /\
  (forall x y, In y (hch (v_heap v') x) <->
     In y (hch (v_heap v) x) \/ (valid = true /\ v_objects v (c_aki c) = Some x /\ y = a)) /\
  v_objects v' = kset (v_objects v) (c_ski c) a /\
  v_valid v' = (if valid then kset (v_valid v) (c_ski c) a else v_valid v) /\
  v_serial v' = (if valid && kin (v_objects v) (c_aki c)
                 then kset (v_serial v) (serial_key (c_aki c) (c_serial c)) a else v_serial v) /\
  v_time v' = v_time v /\ v_tals v' = v_tals v /\ v_validroa v' = v_validroa v /\
  v_validcrl v' = v_validcrl v /\ v_validmft v' = v_validmft v /\ v_revoked v' = v_revoked v /\
  v_roa v' = v_roa v /\ v_crl v' = v_crl v /\ v_mft v' = v_mft v /\ v_path v' = v_path v.
Proof.
  intros c valid v PL v' a. unfold v', store_cert. fold a.
  assert (HN : forall x, ~ In x (hch (v_heap v) a)).
  { intros x H. apply hch_lt in H. unfold a in H. lia. }
  destruct (v_objects v (c_aki c)) as [p|] eqn:O.
  - specialize (PL p eq_refl). fold a in PL.
    assert (HCH : forall x, hch (v_heap v ++ [new_res TUnknown (Some p) None (OCert c)]) x =
              if Nat.eqb x a then [] else hch (v_heap v) x) by (intros; apply hch_alloc).
    destruct valid; cbn [put_object put_valid put_serial upd alloc set_heap v_heap v_objects v_valid
      v_time v_tals v_validroa v_validcrl v_validmft v_serial v_revoked v_roa v_crl v_mft v_path andb];
      unfold kin; rewrite ?O, ?length_heap_upd, ?app_length; cbn [length];
      (split; [unfold a; lia|]); (split; [|split; [|split]]); auto 20.
    + intros x. rewrite hobj_child. apply hobj_alloc.
    + intros x. rewrite hpar_child. apply hpar_alloc.
    + intros x y. rewrite hch_child by (rewrite app_length; unfold a in PL; lia). rewrite !HCH.
      destruct (Nat.eqb_spec x p).
      * subst x. destruct (Nat.eqb_spec p a); [lia|]. rewrite in_app_iff. cbn. intuition.
      * destruct (Nat.eqb_spec x a).
        -- subst x. cbn. specialize (HN y). split; [tauto|]. intros [H|(_ & H & _)]; [tauto|]. congruence.
        -- split; [tauto|]. intros [H|(_ & H & _)]; [tauto|]. congruence.
    + intros x. apply hobj_alloc.
    + intros x. apply hpar_alloc.
    + intros x y. rewrite HCH. destruct (Nat.eqb_spec x a).
      * subst x. cbn. specialize (HN y). intuition discriminate.
      * intuition discriminate.
  - clear PL.
    assert (HCH : forall x, hch (v_heap v ++ [new_res TUnknown None None (OCert c)]) x =
              if Nat.eqb x a then [] else hch (v_heap v) x) by (intros; apply hch_alloc).
    destruct valid; cbn [put_object put_valid put_serial upd alloc set_heap v_heap v_objects v_valid
      v_time v_tals v_validroa v_validcrl v_validmft v_serial v_revoked v_roa v_crl v_mft v_path andb];
      unfold kin; rewrite ?O, ?length_heap_upd, ?app_length; cbn [length];
      (split; [unfold a; lia|]); (split; [|split; [|split]]); auto 20;
      try (intros x; apply hobj_alloc); try (intros x; apply hpar_alloc);
      intros x y; rewrite HCH; (destruct (Nat.eqb_spec x a);
        [subst x; cbn; specialize (HN y); split; [tauto|intros [H|(_ & H & _)]; [tauto|discriminate]]
        |split; [tauto|intros [H|(_ & H & _)]; [tauto|discriminate]]]).
Qed.

Lemma inv_store : forall (T : cert -> Prop) v c tr ok valid,
  Inv T v -> kin (v_objects v) (c_ski c) = false ->
  validate_cert sig_ok c tr v = VRet ok ->
  valid = (kin (v_valid v) (c_aki c) || tr) && ok ->
  (tr = true -> T c) -> Inv T (store_cert c valid v).
Proof.
  intros T v c tr ok valid I K VC VD TR.
  assert (PL : forall p, v_objects v (c_aki c) = Some p -> (p < length (v_heap v))%nat).
  { intros p H. destruct (inv_obj _ _ I _ _ H) as (x & Y & _). now apply hobj_lt in Y. }
  destruct (store_views c valid v PL) as
    (VL & VO & VP & VCH & VOB & VV & VS & VT & VTA & VR & VCR & VM & _).
  set (v' := store_cert c valid v) in *. clearbody v'. set (a := length (v_heap v)) in *.
  assert (NO : v_objects v (c_ski c) = None).
  { unfold kin in K. destruct (v_objects v (c_ski c)); [discriminate|reflexivity]. }
  assert (OLD : forall k b, v_objects v k = Some b -> k <> c_ski c).
  { intros k b H E. subst. congruence. }
  assert (OLT : forall k b, v_objects v k = Some b -> (b < a)%nat).
  { intros k b H. destruct (inv_obj _ _ I _ _ H) as (x & Y & _). now apply hobj_lt in Y. }
  assert (HOK : forall b o, hobj (v_heap v) b = Some o -> hobj (v_heap v') b = Some o).
  { intros b o H. rewrite VO. assert (L := hobj_lt _ _ _ H). destruct (Nat.eqb_spec b a); [unfold a in *; lia|exact H]. }
  assert (HOB : forall b o, (b < a)%nat -> hobj (v_heap v') b = Some o -> hobj (v_heap v) b = Some o).
  { intros b o L H. rewrite VO in H. destruct (Nat.eqb_spec b a); [lia|exact H]. }
  assert (HPB : forall b, (b < a)%nat -> hpar (v_heap v') b = hpar (v_heap v) b).
  { intros b L. rewrite VP. destruct (Nat.eqb_spec b a); [lia|reflexivity]. }
  assert (HA : hobj (v_heap v') a = Some (OCert c)) by (rewrite VO, Nat.eqb_refl; reflexivity).
  assert (PA : hpar (v_heap v') a = v_objects v (c_aki c)) by (rewrite VP, Nat.eqb_refl; reflexivity).
  assert (OBK : forall k b, v_objects v k = Some b -> v_objects v' k = Some b).
  { intros k b H. rewrite VOB. rewrite kset_neq; eauto. }
  assert (VVK : forall k b, v_valid v k = Some b -> v_valid v' k = Some b).
  { intros k b H. rewrite VV. destruct valid; [|exact H]. rewrite kset_neq; [exact H|].
    apply (inv_valid _ _ I) in H. eauto. }
  assert (VVI : forall k b, v_valid v' k = Some b ->
     (v_valid v k = Some b /\ (b < a)%nat) \/ (valid = true /\ k = c_ski c /\ b = a)).
  { intros k b H. rewrite VV in H. destruct valid.
    - apply kset_some in H. destruct H as [[-> ->]|[_ H]]; [right; auto|].
      left. split; [exact H|]. apply (inv_valid _ _ I) in H. eauto.
    - left. split; [exact H|]. apply (inv_valid _ _ I) in H. eauto. }
  constructor; rewrite ?VT, ?VTA, ?VR, ?VCR, ?VM.
  - intros k b H. rewrite VOB in H. apply kset_some in H. destruct H as [[-> ->]|[_ H]]; [eauto|].
    destruct (inv_obj _ _ I _ _ H) as (x & Y & Z). eauto.
  - intros k b H. destruct (VVI _ _ H) as [[H' _]|(_ & -> & ->)].
    + apply OBK. now apply (inv_valid _ _ I).
    + rewrite VOB. apply kset_eq.
  - intros b p. rewrite VP. destruct (Nat.eqb_spec b a).
    + intros H. subst. eauto.
    + apply (inv_par _ _ I).
  - intros x y H. rewrite VL. apply VCH in H. destruct H as [H|(_ & H & ->)].
    + apply (inv_chlt _ _ I) in H. fold a in H. lia.
    + specialize (PL _ H). fold a in PL. lia.
  - intros k b c0 H O. destruct (VVI _ _ H) as [[H' L]|(-> & -> & ->)].
    + apply HOB in O; auto. destruct (inv_chain _ _ I _ _ _ H' O) as (W & [X|(pa & pc & X1 & X2 & X3 & X4)]); auto.
      split; auto. right. exists pa, pc. rewrite HPB by auto. auto.
    + rewrite HA in O. inversion O; subst c0. symmetry in VD. apply andb_true_iff in VD. destruct VD as [VD ->].
      split; [exact (validate_cert_window _ _ _ VC)|].
      destruct tr; [left; auto|]. destruct (validate_cert_true _ _ VC) as (_ & pa & pc & X1 & X2 & X3 & _).
      right. exists pa, pc. repeat split; auto. rewrite PA. now apply (inv_valid _ _ I).
  - intros k b c0 p H O P. destruct (VVI _ _ H) as [[H' L]|(-> & -> & ->)].
    + apply HOB in O; auto. rewrite HPB in P by auto. destruct (inv_link _ _ I _ _ _ _ H' O P).
      split; auto. apply VCH. auto.
    + rewrite HA in O. inversion O; subst c0. rewrite PA in P. split; auto. apply VCH. auto.
  - intros p b c0 H O. apply VCH in H. destruct H as [H|(-> & H & ->)].
    + assert (L := inv_chlt _ _ I _ _ H). fold a in L. apply HOB in O; [|lia]. rewrite HPB by lia.
      destruct (inv_chcert _ _ I _ _ _ H O) as (? & ? & ?). auto.
    + rewrite HA in O. inversion O; subst c0. repeat split; auto.
      * rewrite VOB. apply kset_eq.
      * now rewrite PA.
  - intros p b x H O. apply VCH in H. destruct H as [H|(-> & H & ->)].
    + assert (L := inv_chlt _ _ I _ _ H). fold a in L. apply HOB in O; [|lia]. apply HOK. eapply inv_chroa; eauto.
    + congruence.
  - intros p b x H O. apply VCH in H. destruct H as [H|(-> & H & ->)].
    + assert (L := inv_chlt _ _ I _ _ H). fold a in L. apply HOB in O; [|lia]. apply HOK. eapply inv_chmft; eauto.
    + congruence.
  - intros k b H. destruct (inv_vroa _ _ I _ _ H) as (x & y & X1 & X2 & X3 & X4 & X5). exists x, y. auto 10.
  - intros k b H. destruct (inv_vcrl _ _ I _ _ H) as (X & l & Y & Z). split; [|eauto].
    destruct (v_valid v k) as [z|] eqn:E; [|tauto]. rewrite (VVK _ _ E). discriminate.
  - intros k b H. destruct (inv_vmft _ _ I _ _ H) as (x & y & X1 & X2 & X3 & X4 & X5). exists x, y. auto 10.
  - intros k b H. rewrite VS in H. destruct (valid && kin (v_objects v) (c_aki c)).
    + apply kset_some in H. destruct H as [[-> ->]|[_ H]].
      * exists c. repeat split; auto. rewrite VOB. apply kset_eq.
      * destruct (inv_serial _ _ I _ _ H) as (x & X1 & X2 & X3). exists x. auto.
    + destruct (inv_serial _ _ I _ _ H) as (x & X1 & X2 & X3). exists x. auto.
  - intros k b H. destruct (inv_tal _ _ I _ _ H) as (t & X). eauto.
Qed.

Lemma inv_add_cert : forall (T : cert -> Prop) v c tr v' valid ps a err,
  Inv T v -> (tr = true -> T c) ->
  add_cert sig_ok c tr v = VRet (v', (valid, ps, a, err)) ->
  Inv T v' /\ hobj (v_heap v') a = Some (OCert c) /\ a = length (v_heap v) /\
  length (v_heap v') = S a /\ v_time v' = v_time v /\
  (valid = true -> v_valid v' (c_ski c) = Some a /\ v_objects v' (c_ski c) = Some a).
Proof.
  intros T v c tr v' valid ps a err I TR H. destruct (add_cert_cases _ _ _ _ _ _ _ _ H) as (-> & [C|C]).
  - destruct C as (K & -> & -> & -> & ->).
    split; [apply inv_alloc; auto; discriminate|]. repeat split; try discriminate.
    + cbn. rewrite hobj_alloc, Nat.eqb_refl. reflexivity.
    + cbn. rewrite app_length. cbn. lia.
  - destruct C as (K & -> & ok & VC & VD & -> & ->).
    assert (PL : forall p, v_objects v (c_aki c) = Some p -> (p < length (v_heap v))%nat).
    { intros p HP. destruct (inv_obj _ _ I _ _ HP) as (x & Y & _). now apply hobj_lt in Y. }
    destruct (store_views c valid v PL) as (VL & VO & VP & VCH & VOB & VV & VS & VT & _).
    split; [now apply (inv_store T v c tr ok)|]. repeat split; auto.
    + rewrite VO, Nat.eqb_refl. reflexivity.
    + rewrite VV, H0. apply kset_eq.
    + rewrite VOB. apply kset_eq.
Qed.
End Inv.
