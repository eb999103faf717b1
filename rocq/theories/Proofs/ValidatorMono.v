(** What no operation can undo. *)
From Coq Require Import Lia.
From Verif.Model Require Import Base NetIP CertRes Roa Str Tal Validator.
From Verif.Spec Require Import Trust.
From Verif.Proofs Require Import StrProofs HeapProofs Invalidate ValidatorInv ValidatorRun.

(** [ext v v']: objects keep their address and content, known objects that are
    not valid stay so, revocations stay. *)
Record ext (v v' : validator) : Prop := {
  ext_obj : forall a o, hobj (v_heap v) a = Some o -> hobj (v_heap v') a = Some o;
  ext_par : forall a, (a < length (v_heap v))%nat -> hpar (v_heap v') a = hpar (v_heap v) a;
  ext_ch : forall a b, In b (hch (v_heap v) a) -> In b (hch (v_heap v') a);
  ext_objects : forall k a, v_objects v k = Some a -> v_objects v' k = Some a;
  ext_valid : forall k a, v_objects v k = Some a -> v_valid v k = None -> v_valid v' k = None;
  ext_validold : forall k a, v_objects v k = Some a -> v_valid v' k <> None -> v_valid v' k = v_valid v k;
  ext_revoked : forall k, kin (v_revoked v) k = true -> kin (v_revoked v') k = true;
  ext_serial : forall k, kin (v_serial v) k = true -> kin (v_serial v') k = true;
  ext_len : (length (v_heap v) <= length (v_heap v'))%nat }.

Lemma ext_refl : forall v, ext v v.
Proof. intros. constructor; auto. Qed.
Lemma ext_trans : forall a b c, ext a b -> ext b c -> ext a c.
Proof.
  intros a b c [A1 A2 A3 A4 A5 A6 A7 A8 A9] [B1 B2 B3 B4 B5 B6 B7 B8 B9]. constructor; auto.
  - intros x L. rewrite B2 by lia. auto.
  - intros k x O V. eauto.
  - intros k x O V. rewrite (B6 k x); eauto. apply (A6 k x); auto. intros N. apply V. eapply B5; eauto.
  - lia.
Qed.

(** Same maps, heap only changed in metadata. *)
Lemma ext_sim : forall v v', hsim (v_heap v') (v_heap v) -> v_objects v' = v_objects v ->
  v_valid v' = v_valid v -> v_revoked v' = v_revoked v -> v_serial v' = v_serial v -> ext v v'.
Proof.
  intros v v' [HL HS] E1 E2 E3 E4. constructor; rewrite ?E1, ?E2, ?E3, ?E4; auto.
  - intros a o H. now rewrite (proj1 (HS a)).
  - intros a L. apply HS.
  - intros a b H. now rewrite (proj2 (proj2 (HS a))).
  - lia.
Qed.
Lemma ext_upd_meta : forall v a f, meta f -> ext v (upd a f v).
Proof. intros. apply ext_sim; auto. now apply hsim_upd_meta. Qed.
Lemma ext_alloc : forall v r, ext v (alloc r v).
Proof.
  intros v r. constructor; cbn [alloc set_heap v_heap v_objects v_valid v_revoked v_serial]; auto.
  - intros a o H. rewrite hobj_alloc. pose proof (hobj_lt _ _ _ H). destruct (Nat.eqb_spec a (length (v_heap v))); [lia|auto].
  - intros a L. rewrite hpar_alloc. destruct (Nat.eqb_spec a (length (v_heap v))); [lia|auto].
  - intros a b H. rewrite hch_alloc. pose proof (hch_lt _ _ _ H). destruct (Nat.eqb_spec a (length (v_heap v))); [lia|auto].
  - rewrite app_length. lia.
Qed.
Lemma ext_link : forall v p b, (p < length (v_heap v))%nat -> ext v (upd p (with_child b) v).
Proof.
  intros v p b L. constructor; cbn [upd set_heap v_heap v_objects v_valid v_revoked v_serial]; auto.
  - intros a o. now rewrite hobj_child.
  - intros a _. apply hpar_child.
  - intros a x H. rewrite hch_child by auto. destruct (Nat.eqb_spec a p); [|auto]. subst. apply in_or_app. auto.
  - rewrite length_heap_upd. lia.
Qed.
Lemma ext_drop : forall D v, ext v (drop_keys D v).
Proof.
  intros D v. constructor; rewrite ?drop_keys_heap, ?drop_keys_objects, ?drop_keys_revoked, ?drop_keys_serial; auto.
  - intros k a O V. destruct (drop_keys_valid D v k) as [X Y].
    destruct (in_dec beq_dec k D) as [i|i]; [exact (X i)|now rewrite (Y i)].
  - intros k a O V. destruct (drop_keys_valid D v k) as [X Y].
    destruct (in_dec beq_dec k D) as [i|i]; [rewrite (X i) in V; congruence|exact (Y i)].
Qed.
Lemma ext_invalidate : forall k v v', invalidate k v = VRet v' -> ext v v'.
Proof. intros k v v' H. apply invalidate_spec in H. destruct H as (D & -> & _). apply ext_drop. Qed.
Lemma ext_put_revoked : forall k v, ext v (put_revoked k v).
Proof.
  intros k v. constructor; cbn [put_revoked v_heap v_objects v_valid v_revoked v_serial]; auto.
  intros k' H. rewrite kin_kset, H. apply orb_true_r.
Qed.
Lemma ext_put_path : forall k a v, ext v (put_path k a v).
Proof. intros. apply ext_sim; auto. apply hsim_refl. Qed.
Lemma ext_put_tal : forall k a v, ext v (put_tal k a v).
Proof. intros. apply ext_sim; auto. apply hsim_refl. Qed.
Lemma ext_put_roa : forall k a v, ext v (put_roa k a v).
Proof. intros. apply ext_sim; auto. apply hsim_refl. Qed.
Lemma ext_put_validroa : forall k a v, ext v (put_validroa k a v).
Proof. intros. apply ext_sim; auto. apply hsim_refl. Qed.
Lemma ext_put_mft : forall k a v, ext v (put_mft k a v).
Proof. intros. apply ext_sim; auto. apply hsim_refl. Qed.
Lemma ext_put_validmft : forall k a v, ext v (put_validmft k a v).
Proof. intros. apply ext_sim; auto. apply hsim_refl. Qed.
Lemma ext_put_crl : forall k a v, ext v (put_crl k a v).
Proof. intros. apply ext_sim; auto. apply hsim_refl. Qed.
Lemma ext_put_validcrl : forall k a v, ext v (put_validcrl k a v).
Proof. intros. apply ext_sim; auto. apply hsim_refl. Qed.

Section Mono.
Variable sig_ok : cert -> cert -> bool.
Variable crl_sig_ok : cert -> crl -> bool.
Variable dec_tal : bytes -> option tal.
Variable dec_cert : bytes -> option cert.
Variable dec_roa : bytes -> option roa.
Variable dec_mft : bytes -> option mft.
Variable dec_crl : bytes -> option crl.
Variable hex_sha1 : bytes -> bytes.

Notation Inv := (Inv sig_ok).
Notation add_cert := (add_cert sig_ok).
Notation add_roa := (add_roa sig_ok).
Notation add_mft := (add_mft sig_ok).
Notation add_crl := (add_crl crl_sig_ok).
Notation add_resource := (add_resource sig_ok crl_sig_ok dec_tal dec_cert dec_roa dec_mft dec_crl hex_sha1).
Notation step := (step sig_ok crl_sig_ok dec_tal dec_cert dec_roa dec_mft dec_crl hex_sha1).
Notation run := (run sig_ok crl_sig_ok dec_tal dec_cert dec_roa dec_mft dec_crl hex_sha1).

Lemma ext_store : forall T c valid v, Inv T v -> kin (v_objects v) (c_ski c) = false ->
  ext v (store_cert c valid v).
Proof.
  intros T c valid v I K.
  assert (PL : forall p, v_objects v (c_aki c) = Some p -> (p < length (v_heap v))%nat).
  { intros p HP. destruct (inv_obj _ _ _ I _ _ HP) as (x & Y & _). now apply hobj_lt in Y. }
  destruct (store_views sig_ok c valid v PL) as
    (VL & VO & VP & VCH & VOB & VV & VS & VT & VTA & VR & VCR & VM & VRV & _).
  assert (NE : forall k a, v_objects v k = Some a -> k <> c_ski c).
  { intros k a H ->. unfold kin in K. rewrite H in K. discriminate. }
  constructor.
  - intros a o H. rewrite VO. pose proof (hobj_lt _ _ _ H). destruct (Nat.eqb_spec a (length (v_heap v))); [lia|auto].
  - intros a L. rewrite VP. destruct (Nat.eqb_spec a (length (v_heap v))); [lia|auto].
  - intros a b H. apply VCH. auto.
  - intros k a H. rewrite VOB, kset_neq; eauto.
  - intros k a H V. rewrite VV. destruct valid; auto. rewrite kset_neq; eauto.
  - intros k a H V. rewrite VV. destruct valid; auto. rewrite kset_neq; eauto.
  - now rewrite VRV.
  - intros k H. rewrite VS. destruct (valid && kin (v_objects v) (c_aki c)); auto.
    rewrite kin_kset, H. apply orb_true_r.
  - lia.
Qed.

Lemma ext_add_cert : forall T c tr v v' res, Inv T v -> add_cert c tr v = VRet (v', res) -> ext v v'.
Proof.
  intros T c tr v v' [[[valid ps] a] err] I H. destruct (add_cert_cases _ _ _ _ _ _ _ _ _ H) as (-> & [C|C]).
  - destruct C as (_ & _ & _ & _ & ->). apply ext_alloc.
  - destruct C as (K & _ & ok & _ & _ & _ & ->). now apply (ext_store T).
Qed.

Lemma ext_add_roa : forall T f r v v' res, Inv T v -> add_roa f r v = VRet (v', res) -> ext v v'.
Proof.
  intros T f r v v' res I H. unfold Validator.add_roa in H. vb H. destruct y as (v1 & ((va & ps) & a) & er).
  assert (E1 := ext_add_cert _ _ _ _ _ _ I E).
  assert (L : (a < length (v_heap v1))%nat).
  { assert (F : false = true -> T (roa_cert r)) by discriminate.
    destruct (inv_add_cert sig_ok T _ _ _ _ _ _ _ _ I F E) as (_ & _ & EA & L & _). lia. }
  inversion H; subst v' res; clear H.
  eapply ext_trans; [exact E1|]. eapply ext_trans; [apply (ext_upd_meta v1 a (fun x => with_type TRoaCer (with_file f x))), meta_type_file|].
  eapply ext_trans; [apply (ext_alloc _ (new_res TRoa (Some a) f (ORoa r)))|].
  eapply ext_trans; [apply (ext_link _ a)|].
  - cbn. rewrite app_length, length_heap_upd. cbn. lia.
  - eapply ext_trans; [|apply ext_put_roa]. destruct (va && validate_entries (roa_entries r) && roa_inner r);
      [apply ext_put_validroa|apply ext_refl].
Qed.

Lemma ext_add_mft : forall T f r v v' res, Inv T v -> add_mft f r v = VRet (v', res) -> ext v v'.
Proof.
  intros T f r v v' res I H. unfold Validator.add_mft in H.
  destruct (extract_path_mft (mft_files r)); [|inversion H; subst; apply ext_refl].
  vb H. destruct y as (v1 & ((va & ps) & a) & er).
  assert (E1 := ext_add_cert _ _ _ _ _ _ I E).
  assert (L : (a < length (v_heap v1))%nat).
  { assert (F : false = true -> T (mft_cert r)) by discriminate.
    destruct (inv_add_cert sig_ok T _ _ _ _ _ _ _ _ I F E) as (_ & _ & EA & L & _). lia. }
  inversion H; subst v' res; clear H.
  eapply ext_trans; [exact E1|]. eapply ext_trans; [apply (ext_upd_meta v1 a (fun x => with_type TMftCer (with_file f x))), meta_type_file|].
  eapply ext_trans; [apply (ext_alloc _ (new_res TMft (Some a) f (OMft r)))|].
  eapply ext_trans; [apply (ext_link _ a)|].
  - cbn. rewrite app_length, length_heap_upd. cbn. lia.
  - eapply ext_trans; [|apply ext_put_mft]. destruct (va && mft_inner r);
      [apply ext_put_validmft|apply ext_refl].
Qed.

Lemma ext_revoke_one : forall aki s v v', revoke_one aki s v = VRet v' -> ext v v'.
Proof.
  intros aki s v v' H. destruct (revoke_one_spec _ _ _ _ H) as [->|(a & c & _ & _ & _ & X)];
    [apply ext_refl|eapply ext_invalidate; eauto].
Qed.
Lemma ext_revoke_loop : forall aki l v v', revoke_loop aki l v = VRet v' -> ext v v'.
Proof.
  induction l as [|s l IH]; intros v v' H; [inversion H; subst; apply ext_refl|].
  rewrite revoke_loop_cons in H. vb H. eapply ext_trans; [eapply ext_revoke_one; eauto|].
  eapply ext_trans; [apply ext_put_revoked|]. eapply IH; eauto.
Qed.

Lemma ext_add_crl : forall l v v' res, add_crl l v = VRet (v', res) -> ext v v'.
Proof.
  intros l v v' [valid a] H. apply add_crl_cases in H. destruct H as (-> & [[_ ->]|(_ & p & pc & v3 & O & V & HO & _ & R & ->)]).
  - eapply ext_trans; [apply ext_alloc|apply ext_put_crl].
  - eapply ext_trans; [apply ext_alloc|]. eapply ext_trans; [apply ext_put_validcrl|].
    eapply ext_trans; [eapply ext_revoke_loop; exact R|].
    eapply ext_trans; [|apply ext_put_crl]. apply ext_link.
    apply ext_revoke_loop in R. apply ext_len in R. cbn in R. rewrite app_length in R. apply hobj_lt in HO. lia.
Qed.

Lemma ext_check_tal : forall f c v v', check_tal f c v = VRet (Some v') -> ext v v'.
Proof.
  intros f c v v' H. unfold check_tal in H.
  destruct (f_parent f) as [p|]; [|inversion H; subst; apply ext_refl].
  destruct (is_tal (f_type p)); [|inversion H; subst; apply ext_refl].
  destruct (v_tals v (f_path f)) as [a|]; [|inversion H; subst; apply ext_refl].
  vb H. destruct (r_obj y); try discriminate. vb H.
  destruct y0; inversion H; subst. apply ext_upd_meta, meta_tal.
Qed.

Lemma ext_add_tal : forall t v, ext v (fst (add_tal hex_sha1 t v)).
Proof. intros. unfold add_tal. cbn [fst]. eapply ext_trans; [apply ext_alloc|apply ext_put_tal]. Qed.

Lemma ext_add_resource : forall T f d v v' res, Inv T v ->
  (forall c, f_type f = TCer -> dec_cert d = Some c -> fd_trust (f_desc f) = true -> T c) ->
  add_resource f d v = VRet (v', res) -> ext v v'.
Proof.
  intros T f d v v' res I TR H. unfold Validator.add_resource in H.
  destruct (f_type f) eqn:FT; try (inversion H; subst; apply ext_refl).
  - destruct (dec_cert d) as [c|]; [|inversion H; subst; apply ext_refl]. vb H.
    destruct y as [v1|]; [|inversion H; subst; apply ext_refl]. vb H. destruct y as (v2 & ((va & ps) & a) & er).
    destruct (inv_check_tal sig_ok T _ _ _ _ I E) as (I1 & _).
    inversion H; subst. eapply ext_trans; [eapply ext_check_tal; eauto|].
    eapply ext_trans; [eapply ext_add_cert; [exact I1|exact E0]|].
    eapply ext_trans; [|apply ext_put_path]. apply ext_upd_meta, meta_file_type.
  - destruct (dec_mft d) as [m|]; [|inversion H; subst; apply ext_refl]. vb H. destruct y as (v1 & ((va & ps) & oa) & er).
    apply (ext_add_mft T) in E; auto. destruct oa as [a|]; inversion H; subst; auto.
    eapply ext_trans; [exact E|]. eapply ext_trans; [|apply ext_put_path]. apply ext_upd_meta, meta_file.
  - destruct (dec_roa d) as [m|]; [|inversion H; subst; apply ext_refl]. vb H. destruct y as (v1 & (va & a) & er).
    apply (ext_add_roa T) in E; auto. inversion H; subst; auto.
    eapply ext_trans; [exact E|]. eapply ext_trans; [|apply ext_put_path]. apply ext_upd_meta, meta_file.
  - destruct (dec_crl d) as [l|]; [|inversion H; subst; apply ext_refl]. vb H. destruct y as (v1 & va & a).
    apply ext_add_crl in E. vb H. vb H. destruct (beq y y0); inversion H; subst; auto.
    eapply ext_trans; [exact E|]. eapply ext_trans; [|apply ext_put_path]. apply ext_upd_meta, meta_file.
  - destruct (dec_tal d) as [t|]; [|inversion H; subst; apply ext_refl].
    assert (X := ext_add_tal t v). destruct (add_tal hex_sha1 t v) as (v1 & ps & a). inversion H; subst.
    eapply ext_trans; [exact X|]. apply ext_upd_meta, meta_file.
Qed.

Lemma ext_step : forall T o v v', Inv T v -> (forall c, given_as_anchor dec_cert [o] c -> T c) ->
  step o v = VRet v' -> ext v v'.
Proof.
  intros T o v v' I TR H. destruct o; cbn [Validator.step] in H.
  - apply vfst_ret in H. destruct H as (res & H). eapply ext_add_resource; eauto.
    intros c E1 E2 E3. apply TR. right. exists f, data. cbn. auto.
  - inversion H; subst. apply ext_add_tal.
  - apply vfst_ret in H. destruct H as (res & H). eapply ext_add_cert; eauto.
  - apply vfst_ret in H. destruct H as (res & H). eapply ext_add_roa; eauto.
  - apply vfst_ret in H. destruct H as (res & H). eapply ext_add_mft; eauto.
  - apply vfst_ret in H. destruct H as (res & H). eapply ext_add_crl; eauto.
  - eapply ext_invalidate; eauto.
Qed.

Lemma anchor_cons : forall o ops c, given_as_anchor dec_cert [o] c -> given_as_anchor dec_cert (o :: ops) c.
Proof. intros o ops c [[G|[]]|(f & d & [G|[]] & G')]; [left; left; exact G|right; exists f, d; cbn; auto]. Qed.
Lemma anchor_tail : forall o ops c, given_as_anchor dec_cert ops c -> given_as_anchor dec_cert (o :: ops) c.
Proof. intros o ops c [G|(f & d & G & G')]; [left; right; exact G|right; exists f, d; cbn; tauto]. Qed.
Lemma anchor_app_l : forall l1 l2 c, given_as_anchor dec_cert l1 c -> given_as_anchor dec_cert (l1 ++ l2) c.
Proof.
  intros l1 l2 c [G|(f & d & G & G')]; [left; apply in_or_app; auto|].
  right; exists f, d. split; auto. apply in_or_app; auto.
Qed.
Lemma anchor_app_r : forall l1 l2 c, given_as_anchor dec_cert l2 c -> given_as_anchor dec_cert (l1 ++ l2) c.
Proof.
  intros l1 l2 c [G|(f & d & G & G')]; [left; apply in_or_app; auto|].
  right; exists f, d. split; auto. apply in_or_app; auto.
Qed.

Lemma ext_run : forall (T : cert -> Prop) ops v v', Inv T v -> (forall c, given_as_anchor dec_cert ops c -> T c) ->
  run ops v = VRet v' -> ext v v' /\ Inv T v'.
Proof.
  intros T. induction ops as [|o ops IH]; intros v v' I TR H; cbn [Validator.run] in H.
  - inversion H; subst. split; [apply ext_refl|exact I].
  - vb H. assert (TR1 : forall c, given_as_anchor dec_cert [o] c -> T c) by (intros; apply TR, anchor_cons; auto).
    destruct (inv_step sig_ok crl_sig_ok dec_tal dec_cert dec_roa dec_mft dec_crl hex_sha1 T _ _ _ I TR1 E) as (I1 & _).
    apply IH in H; [|exact I1|intros; apply TR, anchor_tail; auto]. destruct H as [X Y]. split; auto.
    eapply ext_trans; [|exact X]. eapply ext_step; eauto.
Qed.
End Mono.
