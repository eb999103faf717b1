(** C07, C08, C09: trust anchor locators, conflicts, agreement of the indexes. *)
From Coq Require Import Lia.
From Verif.Model Require Import Base NetIP CertRes Roa Str Tal Validator.
From Verif.Spec Require Import Trust.
From Verif.Proofs Require Import StrProofs HeapProofs Invalidate ValidatorInv ValidatorRun ValidatorMono ValidatorAccept ValidatorFacts.

Lemma same_content_refl : forall v, same_content v v.
Proof. intros v. unfold same_content. repeat split. intros a r H. exists r. auto. Qed.

Lemma same_content_trans : forall a b c, same_content a b -> same_content b c -> same_content a c.
Proof.
  intros a b c (A1 & A2 & A3 & A4 & A5 & A6 & A7 & A8 & A9) (B1 & B2 & B3 & B4 & B5 & B6 & B7 & B8 & B9).
  unfold same_content. repeat (split; [congruence|]). intros x r H.
  destruct (A9 _ _ H) as (r1 & H1 & E1 & E2 & E3). destruct (B9 _ _ H1) as (r2 & H2 & F1 & F2 & F3).
  exists r2. repeat split; congruence.
Qed.
Lemma same_content_alloc : forall r v, same_content v (alloc r v).
Proof.
  intros r v. unfold same_content. repeat (split; [reflexivity|]). intros a x H. exists x.
  split; [|auto]. cbn. rewrite nth_error_app1; auto. apply nth_error_Some. congruence.
Qed.
Lemma same_content_meta : forall a f v, meta f -> same_content v (upd a f v).
Proof.
  intros a f v M. unfold same_content. repeat (split; [reflexivity|]). intros x r H. cbn.
  rewrite nth_heap_upd, H. destruct (Nat.eqb x a); [|exists r; auto].
  exists (f r). destruct (M r) as (-> & -> & ->). auto.
Qed.
Lemma same_content_path : forall k a v, same_content v (put_path k a v).
Proof. intros. unfold same_content. repeat (split; [reflexivity|]). intros x r H. exists r. auto. Qed.

(** Changing a resource beyond the old heap does not matter. *)
Lemma same_content_upd_new : forall v w a f, same_content v w -> (length (v_heap v) <= a)%nat ->
  same_content v (upd a f w).
Proof.
  intros v w a f (A1 & A2 & A3 & A4 & A5 & A6 & A7 & A8 & A9) L. unfold same_content.
  repeat (split; [assumption|]). intros x r H. cbn. rewrite nth_heap_upd.
  assert (x < length (v_heap v))%nat by (apply nth_error_Some; congruence).
  destruct (Nat.eqb_spec x a); [lia|]. auto.
Qed.

Lemma kin_true : forall A (m : kmap A) k, m k <> None -> kin m k = true.
Proof. intros A m k H. unfold kin. destruct (m k); congruence. Qed.

Section Misc.
Variable sig_ok : cert -> cert -> bool.
Variable crl_sig_ok : cert -> crl -> bool.
Variable dec_tal : bytes -> option tal.
Variable dec_cert : bytes -> option cert.
Variable dec_roa : bytes -> option roa.
Variable dec_mft : bytes -> option mft.
Variable dec_crl : bytes -> option crl.
Variable hex_sha1 : bytes -> bytes.

Notation Inv := (Inv sig_ok).
Notation add_cert := (add_cert sig_ok).
Notation add_roa := (add_roa sig_ok).
Notation add_mft := (add_mft sig_ok).
Notation add_crl := (add_crl crl_sig_ok).
Notation add_resource := (add_resource sig_ok crl_sig_ok dec_tal dec_cert dec_roa dec_mft dec_crl hex_sha1).
Notation step := (step sig_ok crl_sig_ok dec_tal dec_cert dec_roa dec_mft dec_crl hex_sha1).
Notation run := (run sig_ok crl_sig_ok dec_tal dec_cert dec_roa dec_mft dec_crl hex_sha1).
Notation anchor := (given_as_anchor dec_cert).
Notation inv_run := (inv_run sig_ok crl_sig_ok dec_tal dec_cert dec_roa dec_mft dec_crl hex_sha1).
Notation inv_step := (inv_step sig_ok crl_sig_ok dec_tal dec_cert dec_roa dec_mft dec_crl hex_sha1).

(** * C07 *)
Lemma check_certificate_true : forall t alg k, check_certificate t alg k = Ret true ->
  exists n e, t_alg t = alg_rsa /\ alg = alg_rsa /\ t_key t = RSAPtr n e /\ k = RSAPtr n e.
Proof.
  intros t alg k H. unfold check_certificate in H.
  destruct (Z.eqb_spec (t_alg t) alg); [|discriminate].
  destruct (Z.eqb_spec (t_alg t) alg_rsa); [|discriminate].
  destruct (t_key t) as [n1 e1| |]; try discriminate. destruct k as [n2 e2| |]; try discriminate.
  cbn in H. inversion H as [H1]. apply andb_true_iff in H1. destruct H1 as [H1 H2].
  apply Z.eqb_eq in H1, H2. subst. exists n2, e2. repeat split; congruence.
Qed.

Lemma tal_binding : forall f p d v v' valid ps oa err ta r t,
  f_type f = TCer -> f_parent f = Some p -> f_type p = TTal ->
  v_tals v (f_path f) = Some ta -> nth_error (v_heap v) ta = Some r -> r_obj r = OTal t ->
  add_resource f d v = VRet (v', (valid, ps, oa, err)) ->
  (exists c n e, dec_cert d = Some c /\ t_alg t = alg_rsa /\ c_alg c = alg_rsa /\
     t_key t = RSAPtr n e /\ c_key c = RSAPtr n e) \/
  (v' = v /\ valid = false /\ ps = [] /\ oa = None /\ err = true).
Proof.
  intros f p d v v' valid ps oa err ta r t FT FP PT TA NR RO H.
  unfold Validator.add_resource in H. rewrite FT in H.
  destruct (dec_cert d) as [c|] eqn:DC; [|inversion H; auto 10].
  unfold check_tal in H. rewrite FP, PT, TA in H. cbn [is_tal] in H. unfold deref in H. rewrite NR in H.
  cbn [vbind] in H. rewrite RO in H.
  destruct (check_certificate t (c_alg c) (c_key c)) as [ok|] eqn:CC; cbn [vgo vbind] in H; [|discriminate].
  destruct ok; [|inversion H; auto 10].
  apply check_certificate_true in CC. destruct CC as (n & e & E1 & E2 & E3 & E4).
  left. exists c, n, e. auto 10.
Qed.

Lemma path_cert_not_trusted : forall c p, In p (extract_path_cert c) -> fd_trust p = false.
Proof.
  intros c p H. unfold extract_path_cert in H. apply in_app_or in H. destruct H as [H|H].
  - apply in_map_iff in H. destruct H as (x & <- & _). reflexivity.
  - destruct (last_sia is_sia_mft (c_sia c) None); [destruct H as [<-|[]]; reflexivity|destruct H].
Qed.
Lemma path_mft_not_trusted : forall l ps p, extract_path_mft l = Some ps -> In p ps -> fd_trust p = false.
Proof.
  induction l as [|[n h] l IH]; intros ps p H IN; cbn [extract_path_mft] in H.
  - inversion H; subst. destruct IN.
  - destruct (bad_path n); [discriminate|]. destruct (extract_path_mft l) as [r|]; [|discriminate].
    inversion H; subst. destruct IN as [<-|IN]; [reflexivity|]. eapply IH; eauto.
Qed.

Lemma trust_only_from_tal : forall f d v v' valid ps oa err p,
  add_resource f d v = VRet (v', (valid, ps, oa, err)) -> In p ps -> fd_trust p = true ->
  f_type f = TTal /\ exists t a, dec_tal d = Some t /\ p = mkFile [] (get_rsync_uri hex_sha1 t) TCer true None /\
    v_tals v' (fd_path p) = Some a /\ exists r, nth_error (v_heap v') a = Some r /\ r_obj r = OTal t.
Proof.
  intros f d v v' valid ps oa err p H IN TR. unfold Validator.add_resource in H.
  destruct (f_type f) eqn:FT; try (inversion H; subst; destruct IN; fail).
  - destruct (dec_cert d) as [c|]; [|inversion H; subst; destruct IN]. vb H. destruct y as [v1|]; [|inversion H; subst; destruct IN].
    vb H. destruct y as (v2 & ((va & ps') & a) & er). inversion H; subst.
    destruct (add_cert_cases _ _ _ _ _ _ _ _ _ E0) as (-> & [(_ & _ & _ & -> & _)|(_ & -> & _)]); [destruct IN|].
    apply path_cert_not_trusted in IN. congruence.
  - destruct (dec_mft d) as [m|]; [|inversion H; subst; destruct IN]. vb H. destruct y as (v1 & ((va & ps') & ob) & er).
    unfold Validator.add_mft in E. destruct (extract_path_mft (mft_files m)) as [paths|] eqn:EP.
    + vb E. destruct y as (v2 & ((va2 & ps2) & a2) & er2). inversion E; subst. inversion H; subst.
      eapply path_mft_not_trusted in EP; eauto. congruence.
    + inversion E; subst. inversion H; subst. destruct IN.
  - destruct (dec_roa d) as [x|]; [|inversion H; subst; destruct IN]. vb H. destruct y as (v1 & (va & a) & er).
    inversion H; subst. destruct IN.
  - destruct (dec_crl d) as [x|]; [|inversion H; subst; destruct IN]. vb H. destruct y as (v1 & va & a).
    vb H. vb H. destruct (beq y y0); inversion H; subst; destruct IN.
  - destruct (dec_tal d) as [t|]; [|inversion H; subst; destruct IN]. cbn [add_tal] in H.
    inversion H; subst. destruct IN as [<-|[]]. split; auto.
    exists t, (length (v_heap v)). repeat split. cbn [fd_path].
    + cbn. unfold kset. now rewrite beq_refl.
    + eexists. cbn. rewrite nth_heap_upd, Nat.eqb_refl. rewrite nth_error_app2 by lia. rewrite Nat.sub_diag. cbn. split; reflexivity.
Qed.

Lemma no_issuer_is_anchor : forall ops now v c a r, run ops (new_validator now) = VRet v ->
  v_valid v (c_ski c) = Some a -> nth_error (v_heap v) a = Some r -> r_obj r = OCert c ->
  r_parent r = None -> anchor ops c.
Proof.
  intros ops now v c a r R V NR RO RP. destruct (inv_run _ _ _ R) as (I & _).
  assert (HO : hobj (v_heap v) a = Some (OCert c)) by (unfold hobj; rewrite NR; cbn; congruence).
  assert (HP : hpar (v_heap v) a = None) by (unfold hpar; rewrite NR; auto).
  destruct (inv_chain _ _ _ I _ _ _ V HO) as (_ & [T|(pa & pc & _ & _ & _ & X)]); [auto|congruence].
Qed.

(** * C08 *)
Lemma conflict_cert : forall c tr v v' res, kin (v_objects v) (c_ski c) = true ->
  add_cert c tr v = VRet (v', res) ->
  same_content v v' /\ res = (false, [], length (v_heap v), true) /\
  v_roa v' = v_roa v /\ v_mft v' = v_mft v /\ v_path v' = v_path v /\ length (v_heap v') = S (length (v_heap v)).
Proof.
  intros c tr v v' res K H. unfold Validator.add_cert in H. rewrite K in H. inversion H; subst.
  split; [apply same_content_alloc|]. cbn. rewrite app_length. cbn. repeat split; lia.
Qed.

Lemma conflict_roa : forall f x v v' res, kin (v_objects v) (c_ski (roa_cert x)) = true ->
  add_roa f x v = VRet (v', res) -> same_content v v' /\ exists b, res = (false, b, true) /\ (length (v_heap v) <= b)%nat.
Proof.
  intros f x v v' res K H. unfold Validator.add_roa in H. vb H. destruct y as (v1 & ((va & ps) & a) & er).
  destruct (conflict_cert _ _ _ _ _ K E) as (S & R & _ & _ & _ & L). inversion R; subst.
  cbn [andb orb] in H. inversion H; subst. split.
  - assert (S3 : same_content v (upd (length (v_heap v)) (with_child (length (v_heap (upd (length (v_heap v)) (fun y => with_type TRoaCer (with_file f y)) v1))))
        (alloc (new_res TRoa (Some (length (v_heap v))) f (ORoa x)) (upd (length (v_heap v)) (fun y => with_type TRoaCer (with_file f y)) v1)))).
    { apply same_content_upd_new; [|lia]. eapply same_content_trans; [|apply same_content_alloc].
      apply same_content_upd_new; [exact S|lia]. }
    exact S3.
  - eexists. split; [reflexivity|]. cbn. rewrite length_heap_upd. lia.
Qed.

Lemma conflict_mft : forall f x v v' res, kin (v_objects v) (c_ski (mft_cert x)) = true ->
  add_mft f x v = VRet (v', res) -> same_content v v' /\ exists ps ob, res = (false, ps, ob, true) /\
    (forall b, ob = Some b -> (length (v_heap v) <= b)%nat).
Proof.
  intros f x v v' res K H. unfold Validator.add_mft in H.
  destruct (extract_path_mft (mft_files x)) as [paths|].
  2:{ inversion H; subst. split; [apply same_content_refl|]. exists [], None. split; auto. discriminate. }
  vb H. destruct y as (v1 & ((va & ps) & a) & er).
  destruct (conflict_cert _ _ _ _ _ K E) as (S & R & _ & _ & _ & L). inversion R; subst.
  cbn [andb orb] in H. inversion H; subst. split.
  - assert (S3 : same_content v (upd (length (v_heap v)) (with_child (length (v_heap (upd (length (v_heap v)) (fun y => with_type TMftCer (with_file f y)) v1))))
        (alloc (new_res TMft (Some (length (v_heap v))) f (OMft x)) (upd (length (v_heap v)) (fun y => with_type TMftCer (with_file f y)) v1)))).
    { apply same_content_upd_new; [|lia]. eapply same_content_trans; [|apply same_content_alloc].
      apply same_content_upd_new; [exact S|lia]. }
    exact S3.
  - eexists _, _. split; [reflexivity|]. intros b HB. inversion HB; subst. cbn. rewrite length_heap_upd. lia.
Qed.

Lemma check_tal_same : forall f c v v', check_tal f c v = VRet (Some v') -> same_content v v'.
Proof.
  intros f c v v' H. unfold check_tal in H.
  destruct (f_parent f) as [p|]; [|inversion H; subst; apply same_content_refl].
  destruct (is_tal (f_type p)); [|inversion H; subst; apply same_content_refl].
  destruct (v_tals v (f_path f)) as [a|]; [|inversion H; subst; apply same_content_refl].
  vb H. destruct (r_obj y); try discriminate. vb H.
  destruct y0; inversion H; subst. apply same_content_meta, meta_tal.
Qed.

Lemma conflict_resource : forall f d v v' res k,
  brought dec_cert dec_roa dec_mft (DoResource f d) = Some k -> kin (v_objects v) k = true ->
  add_resource f d v = VRet (v', res) ->
  same_content v v' /\ exists ps oa, res = (false, ps, oa, true).
Proof.
  intros f d v v' res k B K H. cbn [brought] in B. unfold Validator.add_resource in H.
  destruct (f_type f) eqn:FT; try discriminate.
  - destruct (dec_cert d) as [c|]; [|discriminate]. cbn in B. inversion B; subst k. vb H.
    destruct y as [v1|]; [|inversion H; subst; split; [apply same_content_refl|eexists _, _; reflexivity]].
    assert (S1 := check_tal_same _ _ _ _ E). vb H. destruct y as (v2 & ((va & ps) & a) & er).
    assert (K1 : kin (v_objects v1) (c_ski c) = true) by (destruct S1 as (-> & _); exact K).
    destruct (conflict_cert _ _ _ _ _ K1 E0) as (S2 & R & _). inversion R; subst. inversion H; subst. split.
    + eapply same_content_trans; [exact S1|]. eapply same_content_trans; [|apply same_content_path].
      apply same_content_upd_new; [exact S2|lia].
    + eexists _, _. reflexivity.
  - destruct (dec_mft d) as [m|]; [|discriminate]. cbn in B. inversion B; subst k. vb H.
    destruct y as (v1 & ((va & ps) & ob) & er).
    destruct (conflict_mft _ _ _ _ _ K E) as (S1 & ps' & ob' & R & LB). inversion R; subst.
    destruct ob' as [b|]; inversion H; subst; (split; [|eexists _, _; reflexivity]).
    + eapply same_content_trans; [|apply same_content_path]. apply same_content_upd_new; auto.
    + exact S1.
  - destruct (dec_roa d) as [m|]; [|discriminate]. cbn in B. inversion B; subst k. vb H.
    destruct y as (v1 & (va & b) & er).
    destruct (conflict_roa _ _ _ _ _ K E) as (S1 & b' & R & LB). inversion R; subst.
    inversion H; subst; (split; [|eexists _, _; reflexivity]).
    eapply same_content_trans; [|apply same_content_path]. apply same_content_upd_new; auto.
Qed.

Lemma conflict_step : forall o v v' k,
  brought dec_cert dec_roa dec_mft o = Some k -> v_objects v k <> None ->
  step o v = VRet v' -> same_content v v'.
Proof.
  intros o v v' k B K H. apply kin_true in K. destruct o; cbn [brought] in B; try discriminate; cbn [Validator.step] in H;
    apply vfst_ret in H; destruct H as (res & H).
  - eapply conflict_resource; eauto.
  - inversion B; subst. eapply conflict_cert; eauto.
  - inversion B; subst. eapply conflict_roa; eauto.
  - inversion B; subst. eapply conflict_mft; eauto.
Qed.

(** * C09 *)
Definition known_idx (v : validator) : Prop :=
  (forall k, v_validroa v k <> None -> v_roa v k <> None) /\
  (forall k, v_validmft v k <> None -> v_mft v k <> None) /\
  (forall k, v_validcrl v k <> None -> v_crl v k <> None).

Lemma known_idx_same : forall v v', v_validroa v' = v_validroa v -> v_roa v' = v_roa v ->
  v_validmft v' = v_validmft v -> v_mft v' = v_mft v -> v_validcrl v' = v_validcrl v -> v_crl v' = v_crl v ->
  known_idx v -> known_idx v'.
Proof. intros v v' E1 E2 E3 E4 E5 E6 K. unfold known_idx. rewrite E1, E2, E3, E4, E5, E6. exact K. Qed.

Lemma kset_sub : forall (A B : Type) (m : kmap A) (n : kmap B) k a b,
  (forall k, m k <> None -> n k <> None) -> forall k', kset m k a k' <> None -> kset n k b k' <> None.
Proof. intros A B m n k a b H k'. unfold kset. destruct (beq k' k); [discriminate|auto]. Qed.
Lemma kset_sub_r : forall (A B : Type) (m : kmap A) (n : kmap B) k b,
  (forall k, m k <> None -> n k <> None) -> forall k', m k' <> None -> kset n k b k' <> None.
Proof. intros A B m n k b H k'. unfold kset. destruct (beq k' k); [discriminate|auto]. Qed.

Lemma known_idx_drop : forall D v, known_idx v -> known_idx (drop_keys D v).
Proof.
  intros D v (K1 & K2 & K3). unfold known_idx. rewrite drop_keys_roa, drop_keys_mft, drop_keys_crl, drop_keys_validmft.
  split; [|split]; auto.
  - intros k H. destruct (drop_keys_validroa D v k) as [X Y]. destruct (in_dec beq_dec k D) as [i|i].
    + rewrite (X i) in H. congruence.
    + rewrite (Y i) in H. auto.
  - intros k H. destruct (drop_keys_validcrl D v k) as [X Y]. destruct (in_dec beq_dec k D) as [i|i].
    + rewrite (X i) in H. congruence.
    + rewrite (Y i) in H. auto.
Qed.
Lemma known_idx_invalidate : forall k v v', invalidate k v = VRet v' -> known_idx v -> known_idx v'.
Proof. intros k v v' H K. apply invalidate_spec in H. destruct H as (D & -> & _). now apply known_idx_drop. Qed.

Lemma add_cert_maps : forall T c tr v v' res, Inv T v -> add_cert c tr v = VRet (v', res) ->
  v_validroa v' = v_validroa v /\ v_roa v' = v_roa v /\ v_validmft v' = v_validmft v /\ v_mft v' = v_mft v /\
  v_validcrl v' = v_validcrl v /\ v_crl v' = v_crl v.
Proof.
  intros T c tr v v' [[[valid ps] a] err] I H. destruct (add_cert_cases _ _ _ _ _ _ _ _ _ H) as (-> & [C|C]).
  - destruct C as (_ & _ & _ & _ & ->). auto 10.
  - destruct C as (K & _ & ok & VC & VD & _ & ->).
    assert (PL : forall p, v_objects v (c_aki c) = Some p -> (p < length (v_heap v))%nat).
    { intros p HP. destruct (inv_obj _ _ _ I _ _ HP) as (x & Y & _). now apply hobj_lt in Y. }
    destruct (store_views sig_ok c valid v PL) as (_ & _ & _ & _ & _ & _ & _ & _ & _ & V1 & V2 & V3 & _ & V4 & V5 & V6 & _).
    auto 10.
Qed.

Lemma known_add_roa : forall T f x v v' res, Inv T v -> known_idx v -> add_roa f x v = VRet (v', res) -> known_idx v'.
Proof.
  intros T f x v v' res I (K1 & K2 & K3) H. unfold Validator.add_roa in H. vb H. destruct y as (v1 & ((va & ps) & a) & er).
  destruct (add_cert_maps _ _ _ _ _ _ I E) as (E1 & E2 & E3 & E4 & E5 & E6). inversion H; subst; clear H.
  destruct (va && validate_entries (roa_entries x) && roa_inner x); unfold known_idx; cbn;
    rewrite E1, E2, E3, E4, E5, E6; split; auto.
  - now apply kset_sub.
  - now apply kset_sub_r.
Qed.
Lemma known_add_mft : forall T f x v v' res, Inv T v -> known_idx v -> add_mft f x v = VRet (v', res) -> known_idx v'.
Proof.
  intros T f x v v' res I KK H. assert (KK' := KK). destruct KK' as (K1 & K2 & K3). unfold Validator.add_mft in H.
  destruct (extract_path_mft (mft_files x)) as [paths|]; [|inversion H; subst; exact KK].
  vb H. destruct y as (v1 & ((va & ps) & a) & er).
  destruct (add_cert_maps _ _ _ _ _ _ I E) as (E1 & E2 & E3 & E4 & E5 & E6). inversion H; subst; clear H.
  destruct (va && mft_inner x); unfold known_idx; cbn;
    rewrite E1, E2, E3, E4, E5, E6; (split; [auto|split; [|auto]]).
  - now apply kset_sub.
  - now apply kset_sub_r.
Qed.

Lemma revoke_loop_crl : forall aki l v v', revoke_loop aki l v = VRet v' -> forall b, 
  known_idx (put_crl aki b v) -> known_idx (put_crl aki b v').
Proof.
  induction l as [|s l IH]; intros v v' H b K; [inversion H; subst; exact K|].
  rewrite revoke_loop_cons in H. vb H. apply (IH _ _ H).
  destruct (revoke_one_spec _ _ _ _ E) as [->|(a & c & _ & _ & _ & X)]; [exact K|].
  apply invalidate_spec in X. destruct X as (D & -> & _).
  apply (known_idx_drop D) in K. unfold known_idx in *. cbn in *.
  rewrite drop_keys_roa, drop_keys_mft, drop_keys_crl, drop_keys_validmft in *. cbn in K.
  destruct K as (K1 & K2 & K3). split; [|split; auto].
  - intros k Hk. apply K1. intros E1. apply Hk. clear - E1.
    destruct (in_dec beq_dec k D) as [i|i].
    + exact (proj1 (drop_keys_validroa D v k) i).
    + rewrite (proj2 (drop_keys_validroa D v k) i). rewrite (proj2 (drop_keys_validroa D (put_crl aki b v) k) i) in E1. exact E1.
  - intros k Hk. apply K3. intros E1. apply Hk. clear - E1.
    destruct (in_dec beq_dec k D) as [i|i].
    + exact (proj1 (drop_keys_validcrl D v k) i).
    + rewrite (proj2 (drop_keys_validcrl D v k) i). rewrite (proj2 (drop_keys_validcrl D (put_crl aki b v) k) i) in E1. exact E1.
Qed.

Lemma known_add_crl : forall l v v' res, known_idx v -> add_crl l v = VRet (v', res) -> known_idx v'.
Proof.
  intros l v v' [valid a] (K1 & K2 & K3) H. apply add_crl_cases in H.
  destruct H as (-> & [[_ ->]|(_ & p & pc & v3 & O & V & HO & _ & R & ->)]).
  - unfold known_idx; cbn. split; auto. split; auto. now apply kset_sub_r.
  - apply (revoke_loop_crl _ _ _ _ R (length (v_heap v))).
    unfold known_idx; cbn. split; auto. split; auto. now apply kset_sub.
Qed.

Lemma known_step : forall T o v v', Inv T v -> known_idx v -> step o v = VRet v' -> known_idx v'.
Proof.
  intros T o v v' I K H. destruct o; cbn [Validator.step] in H.
  - apply vfst_ret in H. destruct H as (res & H). unfold Validator.add_resource in H.
    destruct (f_type f) eqn:FT; try (inversion H; subst; exact K).
    + destruct (dec_cert data) as [c|] eqn:DC; [|inversion H; subst; exact K]. vb H.
      destruct y as [v1|]; [|inversion H; subst; exact K]. vb H. destruct y as (v2 & ((va & ps) & a) & er).
      destruct (inv_check_tal sig_ok T _ _ _ _ I E) as (I1 & _).
      assert (M : v_validroa v1 = v_validroa v /\ v_roa v1 = v_roa v /\ v_validmft v1 = v_validmft v /\ v_mft v1 = v_mft v /\
        v_validcrl v1 = v_validcrl v /\ v_crl v1 = v_crl v).
      { unfold check_tal in E.
        destruct (f_parent f) as [p|]; [|inversion E; subst; auto 10].
        destruct (is_tal (f_type p)); [|inversion E; subst; auto 10].
        destruct (v_tals v (f_path f)) as [ta|]; [|inversion E; subst; auto 10].
        vb E. destruct (r_obj y); try discriminate. vb E.
        destruct y0; inversion E; subst. auto 10. }
      destruct (add_cert_maps _ _ _ _ _ _ I1 E0) as (E1 & E2 & E3 & E4 & E5 & E6).
      destruct M as (M1 & M2 & M3 & M4 & M5 & M6).
      inversion H; subst. eapply known_idx_same; [..|exact K]; cbn; congruence.
    + destruct (dec_mft data) as [m|]; [|inversion H; subst; exact K]. vb H. destruct y as (v1 & ((va & ps) & oa) & er).
      apply (known_add_mft T) in E; auto.
      destruct oa as [a|]; inversion H; subst; auto.
    + destruct (dec_roa data) as [m|]; [|inversion H; subst; exact K]. vb H. destruct y as (v1 & (va & a) & er).
      apply (known_add_roa T) in E; auto. inversion H; subst; auto.
    + destruct (dec_crl data) as [l|]; [|inversion H; subst; exact K]. vb H. destruct y as (v1 & va & a).
      apply known_add_crl in E; auto. vb H. vb H. destruct (beq y y0); inversion H; subst; exact E.
    + destruct (dec_tal data) as [t|]; [|inversion H; subst; exact K].
      inversion H; subst. exact K.
  - inversion H; subst. exact K.
  - apply vfst_ret in H. destruct H as (res & H).
    destruct (add_cert_maps _ _ _ _ _ _ I H) as (E1 & E2 & E3 & E4 & E5 & E6). eapply known_idx_same; eauto.
  - apply vfst_ret in H. destruct H as (res & H). eapply known_add_roa; eauto.
  - apply vfst_ret in H. destruct H as (res & H). eapply known_add_mft; eauto.
  - apply vfst_ret in H. destruct H as (res & H). eapply known_add_crl; eauto.
  - eapply known_idx_invalidate; eauto.
Qed.

Lemma known_run : forall T ops v v', Inv T v -> (forall c, anchor ops c -> T c) ->
  known_idx v -> run ops v = VRet v' -> known_idx v'.
Proof.
  intros T. induction ops as [|o ops IH]; intros v v' I TR IX R; cbn [Validator.run] in R.
  - inversion R; subst. exact IX.
  - vb R.
    assert (TR1 : forall c, anchor [o] c -> T c) by (intros; apply TR, anchor_cons; auto).
    destruct (inv_step T _ _ _ I TR1 E) as (I1 & _).
    assert (IX1 : known_idx y) by (apply (known_step T _ _ _ I IX E)).
    apply (IH y v'); auto. intros; apply TR, anchor_tail; auto.
Qed.

Lemma indexes_agree : forall ops now v, run ops (new_validator now) = VRet v ->
  (forall k a, v_valid v k = Some a -> v_objects v k = Some a) /\
  (forall k a, v_objects v k = Some a -> exists c, cert_at v a c /\ c_ski c = k) /\
  (forall k b, v_validroa v k = Some b -> v_roa v k <> None /\
     exists x a, roa_at v b x /\ c_ski (roa_cert x) = k /\ v_valid v k = Some a /\ cert_at v a (roa_cert x)) /\
  (forall k b, v_validcrl v k = Some b -> v_crl v k <> None /\ v_valid v k <> None) /\
  (forall k b, v_validmft v k = Some b -> v_mft v k <> None /\
     exists m a r, nth_error (v_heap v) b = Some r /\ r_obj r = OMft m /\ c_ski (mft_cert m) = k /\
       v_objects v k = Some a /\ cert_at v a (mft_cert m)).
Proof.
  intros ops now v R. destruct (inv_run _ _ _ R) as (I & _).
  assert (K : known_idx v).
  { apply (known_run (anchor ops) ops (new_validator now) v); auto; [apply inv_new|].
    unfold known_idx. cbn. auto. }
  destruct K as (K1 & K2 & K3).
  split; [exact (inv_valid _ _ _ I)|]. split; [|split; [|split]].
  - intros k a H. destruct (inv_obj _ _ _ I _ _ H) as (c & HO & E). exists c. split; auto. now apply hobj_cert_at.
  - intros k b H. split; [apply K1; congruence|]. destruct (inv_vroa _ _ _ I _ _ H) as (x & a & H1 & H2 & H3 & H4 & _).
    exists x, a. split; [now apply hobj_roa_at|]. split; auto. split; auto. now apply hobj_cert_at.
  - intros k b H. split; [apply K3; congruence|]. now destruct (inv_vcrl _ _ _ I _ _ H).
  - intros k b H. split; [apply K2; congruence|]. destruct (inv_vmft _ _ _ I _ _ H) as (x & a & H1 & H2 & H3 & H4 & _).
    unfold hobj in H1. destruct (nth_error (v_heap v) b) as [r|]; [|discriminate]. cbn in H1. inversion H1.
    exists x, a, r. repeat split; auto. now apply hobj_cert_at.
Qed.
End Misc.
