(** The reports of the manager, one iteration. *)
From Coq Require Import Lia.
From Verif.Model Require Import Base NetIP CertRes Roa Str Ber Tal Validator Explore ErrReport.
From Verif.Spec Require Import Trust Discovery ErrReportSpec.
From Verif.Proofs Require Import StrProofs HeapProofs ValidatorInv ValidatorRun CtProofs ExploreInv.

Definition drop {A} (x : vres (mgr * A)) : vres mgr := do! (s, _) := x in VRet s.
Definition is_none {A} (o : option A) : bool := match o with None => true | Some _ => false end.

Section Reports.
Variable sig_ok : cert -> cert -> bool.
Variable crl_sig_ok : cert -> crl -> bool.
Variable dec_tal : bytes -> option tal.
Variable dec_cert : bytes -> option cert.
Variable dec_roa : bytes -> option roa.
Variable dec_mft : bytes -> option mft.
Variable dec_crl : bytes -> option crl.
Variable hex_sha1 : bytes -> bytes.
Variable disk : bytes -> option bytes.
Variable synced : bytes -> bool.
Variable sha256 : bytes -> bytes.
Variable clock : nat -> Z * Z.
Variable strict_manifests : bool.
Variable strict_hash : bool.
Variable add_invalid : bool.
Notation add_resource := (add_resource sig_ok crl_sig_ok dec_tal dec_cert dec_roa dec_mft dec_crl hex_sha1).
Notation resource_error := (resource_error sig_ok crl_sig_ok dec_tal dec_cert dec_roa dec_mft dec_crl).
Notation explore_add := (explore_add sig_ok crl_sig_ok dec_tal dec_cert dec_roa dec_mft dec_crl hex_sha1 add_invalid).
Notation explore_bad := (explore_bad strict_manifests).
Notation explore_file := (explore_file sig_ok crl_sig_ok dec_tal dec_cert dec_roa dec_mft dec_crl hex_sha1 disk synced sha256 clock strict_manifests strict_hash add_invalid).
Notation explore_iter := (explore_iter sig_ok crl_sig_ok dec_tal dec_cert dec_roa dec_mft dec_crl hex_sha1 disk synced sha256 clock strict_manifests strict_hash add_invalid).
Notation explore := (explore sig_ok crl_sig_ok dec_tal dec_cert dec_roa dec_mft dec_crl hex_sha1 disk synced sha256 clock strict_manifests strict_hash add_invalid).
Notation add_rep := (add_rep sig_ok crl_sig_ok dec_tal dec_cert dec_roa dec_mft dec_crl hex_sha1 add_invalid).
Notation bad_rep := (bad_rep strict_manifests).
Notation check_rep := (check_rep clock strict_hash).
Notation file_rep := (file_rep sig_ok crl_sig_ok dec_tal dec_cert dec_roa dec_mft dec_crl hex_sha1 disk synced sha256 clock strict_manifests strict_hash add_invalid).
Notation iter_rep := (iter_rep sig_ok crl_sig_ok dec_tal dec_cert dec_roa dec_mft dec_crl hex_sha1 disk synced sha256 clock strict_manifests strict_hash add_invalid).
Notation explore_rep := (explore_rep sig_ok crl_sig_ok dec_tal dec_cert dec_roa dec_mft dec_crl hex_sha1 disk synced sha256 clock strict_manifests strict_hash add_invalid).

(** * The errors are those of the validator *)
Lemma cert_error_ok : forall c t v, validate_cert sig_ok c t v = do! e := cert_error sig_ok c t v in VRet (is_none e).
Proof.
  intros c t v. unfold validate_cert, cert_error. destruct (negb (time_ok c (v_time v))); [reflexivity|].
  destruct t; [reflexivity|]. destruct (v_valid v (c_aki c)) as [pa|]; [|reflexivity].
  destruct (deref (v_heap v) pa) as [pr| |]; cbn [vbind]; [|reflexivity..].
  destruct (r_obj pr) as [pc| | | |]; try reflexivity.
  destruct (negb (sig_ok pc c)); [reflexivity|]. destruct (kin _ _); [reflexivity|].
  destruct (vgo (validate_ip_list (c_ips c) (c_ips pc))) as [((x & inv) & chk)| |]; cbn [vbind]; [|reflexivity..].
  destruct (ip_chain _ _ _ _ _ _ _) as [[inv'|]| |]; cbn [vbind]; try reflexivity.
  destruct (validate_as_list (c_asns c) (c_asns pc)) as ((y & ainv) & achk).
  destruct (as_chain _ _ _ _ _ _ _) as [[ainv'|]| |]; cbn [vbind]; try reflexivity.
  destruct inv', ainv'; reflexivity.
Qed.

Lemma cert_error_parent : forall c t v, cert_error sig_ok c t v = VRet None -> t = true \/ kin (v_valid v) (c_aki c) = true.
Proof.
  intros c t v H. unfold cert_error in H. destruct (negb (time_ok c (v_time v))); [discriminate|].
  destruct t; auto. unfold kin. destruct (v_valid v (c_aki c)) as [pa|]; [auto|discriminate].
Qed.

Lemma add_cert_err : forall c t v v' valid ps a err, add_cert sig_ok c t v = VRet (v', (valid, ps, a, err)) ->
  exists e, add_cert_error sig_ok c t v = VRet e /\ err = negb (is_none e) /\ valid = is_none e.
Proof.
  intros c t v v' valid ps a err H. unfold add_cert_error.
  destruct (add_cert_cases _ _ _ _ _ _ _ _ _ H) as (_ & [(K & -> & -> & _)|(K & _ & ok & VC & VD & -> & _)]); rewrite K; [eauto|].
  rewrite cert_error_ok in VC. destruct (cert_error sig_ok c t v) as [e| |] eqn:CE; cbn [vbind] in VC; try discriminate.
  inversion VC; subst ok. exists e. split; [reflexivity|]. split; [reflexivity|]. rewrite VD. destruct e; cbn [is_none]; [now rewrite andb_false_r|].
  destruct (cert_error_parent _ _ _ CE) as [->| ->]; [now rewrite orb_true_r|reflexivity].
Qed.

Lemma resource_err : forall f d v v' valid ps oa err, add_resource f d v = VRet (v', (valid, ps, oa, err)) ->
  exists e, resource_error f d v = VRet e /\ err = negb (is_none e) /\ (valid = true -> e = None /\ oa <> None) /\
    (f_type f <> TCrl -> valid = is_none e).
Proof.
  intros f d v v' valid ps oa err H. unfold Validator.add_resource in H. unfold ErrReport.resource_error.
  assert (BAD : forall v1, VRet (v1, add_error) = VRet (v', (valid, ps, oa, err)) ->
    exists e, VRet (A := option ekind) (Some EFile) = VRet e /\ err = negb (is_none e) /\ (valid = true -> e = None /\ oa <> None) /\
      (f_type f <> TCrl -> valid = is_none e)).
  { intros v1 B. unfold add_error in B. inversion B; subst. exists (Some EFile). repeat split; auto; discriminate. }
  destruct (f_type f) eqn:FT; try (now apply (BAD _ H)).
  - destruct (dec_cert d) as [c|]; [|now apply (BAD _ H)].
    destruct (check_tal f c v) as [[v1|]| |]; cbn [vbind] in H |- *; try discriminate; [|now apply (BAD _ H)].
    destruct (add_cert sig_ok c (fd_trust (f_desc f)) v1) as [(v2 & (((b & ps1) & a1) & e1))| |] eqn:A; cbn [vbind] in H; try discriminate.
    destruct (add_cert_err _ _ _ _ _ _ _ _ A) as (e & E1 & E2 & E3). inversion H; subst. exists e. split; auto. split; auto.
    split; auto. intros X. split; [destruct e; auto; discriminate|discriminate].
  - destruct (dec_mft d) as [m|]; [|now apply (BAD _ H)].
    destruct (add_mft sig_ok (Some f) m v) as [(v1 & (((b & ps1) & oa1) & e1))| |] eqn:A; cbn [vbind] in H; try discriminate.
    unfold add_mft in A. unfold add_mft_error. destruct (extract_path_mft (mft_files m)) as [fs|].
    2:{ inversion A; subst. inversion H; subst. exists (Some EFile). repeat split; auto; discriminate. }
    destruct (add_cert sig_ok (mft_cert m) false v) as [(v2 & (((b2 & ps2) & a2) & e2))| |] eqn:A2; cbn [vbind] in A; try discriminate.
    destruct (add_cert_err _ _ _ _ _ _ _ _ A2) as (e & E1 & E2 & E3). rewrite E1. cbn [vbind].
    injection A as _ A3 A4 A5 A6. subst b oa1 e1. cbn in H. injection H as _ H1 H2 H3 H4. subst valid oa err.
    eexists. split; [reflexivity|]. subst b2 e2. destruct (mft_inner m), e; cbn; repeat split; auto; try discriminate.
  - destruct (dec_roa d) as [r|]; [|now apply (BAD _ H)].
    destruct (add_roa sig_ok (Some f) r v) as [(v1 & ((b & a1) & e1))| |] eqn:A; cbn [vbind] in H; try discriminate.
    unfold add_roa in A. unfold add_roa_error.
    destruct (add_cert sig_ok (roa_cert r) false v) as [(v2 & (((b2 & ps2) & a2) & e2))| |] eqn:A2; cbn [vbind] in A; try discriminate.
    destruct (add_cert_err _ _ _ _ _ _ _ _ A2) as (e & E1 & E2 & E3). rewrite E1. cbn [vbind].
    injection A as _ A3 A4 A5. subst b a1 e1. injection H as _ H1 H2 H3 H4. subst valid oa err.
    eexists. split; [reflexivity|]. subst b2 e2.
    destruct (validate_entries (roa_entries r)), (roa_inner r), e; cbn; repeat split; auto; try discriminate.
  - destruct (dec_crl d) as [l|]; [|now apply (BAD _ H)].
    destruct (add_crl crl_sig_ok l v) as [(v1 & (b & a1))| |]; cbn [vbind] in H |- *; try discriminate.
    destruct (grandparent_path f) as [w| |]; cbn [vbind] in H |- *; try discriminate.
    destruct (parent_file_path v1 a1) as [h| |]; cbn [vbind] in H |- *; try discriminate.
    destruct (beq w h); [|now apply (BAD _ H)]. inversion H; subst. exists None. repeat split; auto; try discriminate.
  - destruct (dec_tal d) as [t|]; [|now apply (BAD _ H)]. inversion H; subst. exists None. repeat split; auto; discriminate.
Qed.

(** * Reporting changes nothing *)
Lemma inval_mft_drop : forall f s, inval_mft_parent f s = drop (inval_mft_rep f s).
Proof.
  intros f s. unfold inval_mft_parent, inval_mft_rep. destruct (f_parent f) as [p|]; [|reflexivity].
  destruct (is_mft (f_type p)); [|reflexivity]. destruct (f_parent p) as [g|]; [|reflexivity].
  destruct (is_cer (f_type g)); [|reflexivity]. destruct (m_rop s (f_id g)) as [a|]; [|reflexivity].
  destruct (deref (v_heap (m_v s)) a) as [r| |]; cbn [vbind]; [|reflexivity..]. destruct (r_obj r); try reflexivity.
  destruct (invalidate _ _); reflexivity.
Qed.
Lemma inval_crl_drop : forall f s, inval_crl_parent f s = drop (inval_crl_rep f s).
Proof.
  intros f s. unfold inval_crl_parent, inval_crl_rep. destruct (f_parent f) as [p|]; [|reflexivity].
  destruct (is_crl (f_type p)); [|reflexivity]. destruct (f_parent p) as [g|]; [|reflexivity].
  destruct (is_cer (f_type g)); [|reflexivity]. destruct (v_path (m_v s) (f_path g)) as [a|]; [|reflexivity].
  destruct (deref (v_heap (m_v s)) a) as [r| |]; cbn [vbind]; [|reflexivity..]. destruct (r_obj r); try reflexivity.
  destruct (invalidate _ _); reflexivity.
Qed.
Lemma add_drop : forall f d s, explore_add f d s = drop (add_rep f d s).
Proof.
  intros f d s. unfold Explore.explore_add, ErrReport.add_rep.
  destruct (add_resource f d (m_v s)) as [(v & (((b & ps) & oa) & err))| |] eqn:A; cbn [vbind]; [|reflexivity..].
  destruct (resource_err _ _ _ _ _ _ _ _ A) as (e & E & _). rewrite E. cbn [vbind]. destruct (add_invalid || b); reflexivity.
Qed.
Lemma bad_drop : forall e f s, explore_bad (match e with [] => false | _ :: _ => true end) f s = drop (bad_rep e f s).
Proof.
  intros e f s. unfold Explore.explore_bad, ErrReport.bad_rep. destruct strict_manifests.
  - rewrite inval_mft_drop. destruct (inval_mft_rep f s) as [(s1 & r1)| |]; cbn [vbind drop]; [|reflexivity..].
    destruct e; [reflexivity|]. rewrite inval_crl_drop. destruct (inval_crl_rep f s1) as [(s2 & r2)| |]; reflexivity.
  - cbn [vbind]. destruct e; [reflexivity|]. rewrite inval_crl_drop. destruct (inval_crl_rep f s) as [(s2 & r2)| |]; reflexivity.
Qed.
Lemma file_drop : forall f s, explore_file f s = drop (file_rep f s).
Proof.
  intros f s. unfold Explore.explore_file, ErrReport.file_rep.
  destruct (get_next_file disk synced sha256 f s) as [[| |d sha]| |]; cbn [vbind]; [| | |reflexivity..].
  - exact (bad_drop [fetch_error f s] f s).
  - exact (bad_drop [] f s).
  - unfold check_listed, ErrReport.check_rep. destruct (fd_hash (f_desc f)) as [h|].
    2:{ cbn [vbind]. rewrite add_drop. destruct (add_rep f d s) as [(x & y)| |]; reflexivity. }
    destruct strict_hash.
    2:{ cbn [vbind]. rewrite add_drop. destruct (add_rep f d s) as [(x & y)| |]; reflexivity. }
    destruct (listed_stale clock f s) as [st| |]; cbn [vbind]; [|reflexivity..].
    destruct st.
    + rewrite inval_mft_drop. destruct (inval_mft_rep f s) as [(s1 & r1)| |]; cbn [vbind drop]; [|reflexivity..].
      destruct (beq sha h).
      * rewrite add_drop. destruct (add_rep f d s1) as [(x & y)| |]; reflexivity.
      * rewrite (bad_drop [mkRep (Some EHash) (Some f) None]). destruct (bad_rep _ f s1) as [(x & y)| |]; reflexivity.
    + cbn [vbind]. destruct (beq sha h).
      * rewrite add_drop. destruct (add_rep f d s) as [(x & y)| |]; reflexivity.
      * rewrite (bad_drop [mkRep (Some EHash) (Some f) None]). destruct (bad_rep _ f s) as [(x & y)| |]; reflexivity.
Qed.
Lemma iter_drop : forall s, explore_iter s = drop (iter_rep s).
Proof. intros s. unfold Explore.explore_iter, ErrReport.iter_rep. destruct (m_queue s); [reflexivity|]. apply file_drop. Qed.
Lemma explore_drop : forall fuel s, (do! (s', _) := explore fuel s in VRet s') = drop (explore_rep fuel s).
Proof.
  induction fuel as [|fuel IH]; intros s; cbn [Explore.explore ErrReport.explore_rep]; destruct (m_queue s); try reflexivity.
  rewrite iter_drop. destruct (iter_rep s) as [(s1 & r1)| |]; cbn [vbind drop]; [|reflexivity..].
  assert (I := IH s1). destruct (explore fuel s1) as [(s2 & n)| |], (explore_rep fuel s1) as [(s3 & r2)| |]; cbn [vbind drop] in I |- *; try discriminate; auto.
Qed.

Lemma explore_with : forall fuel s s' rs, explore_rep fuel s = VRet (s', rs) ->
  exists l, explored_with iter_rep s l s' /\ m_queue s' = [] /\ rs = concat (map snd l).
Proof.
  induction fuel as [|fuel IH]; intros s s' rs H; cbn [ErrReport.explore_rep] in H; destruct (m_queue s) as [|f q] eqn:Q; try discriminate.
  - inversion H; subst. exists []. repeat split; auto. constructor.
  - inversion H; subst. exists []. repeat split; auto. constructor.
  - destruct (iter_rep s) as [(s1 & r1)| |] eqn:I; cbn [vbind] in H; try discriminate.
    destruct (explore_rep fuel s1) as [(s2 & r2)| |] eqn:R; cbn [vbind] in H; try discriminate. inversion H; subst.
    destruct (IH _ _ _ R) as (l & L1 & L2 & ->). exists ((f, r1) :: l). repeat split; auto. eapply ew_step; eauto.
Qed.
Lemma with_explores : forall s l s', explored_with iter_rep s l s' -> explores explore_iter s (map fst l) s'.
Proof.
  intros s l s' H. induction H; [constructor|]. cbn [map fst]. apply (ex_step _ _ _ q s1); auto.
  rewrite iter_drop, H0. reflexivity.
Qed.

(** * What one iteration sends *)
Lemma inval_mft_reports : forall f s s' rs, inval_mft_rep f s = VRet (s', rs) ->
  m_rop s' = m_rop s /\ ((rs = [] /\ s' = s) \/ exists r, rs = [r] /\ ca_report f r).
Proof.
  intros f s s' rs H. unfold inval_mft_rep in H.
  assert (NO : VRet (s, []) = VRet (s', rs) -> m_rop s' = m_rop s /\ ((rs = [] /\ s' = s) \/ exists r, rs = [r] /\ ca_report f r))
    by (intros X; inversion X; auto).
  destruct (f_parent f) as [p|] eqn:FP; [|auto]. destruct (is_mft (f_type p)); [|auto].
  destruct (f_parent p) as [g|] eqn:PP; [|auto]. destruct (is_cer (f_type g)) eqn:GT; [|auto].
  destruct (m_rop s (f_id g)) as [a|]; [|auto]. vb H. destruct (r_obj y); auto. vb H. inversion H; subst. split; [reflexivity|].
  right. eexists. split; [reflexivity|]. split; [reflexivity|]. split; [left; reflexivity|].
  exists p, g. repeat split; auto. destruct (f_type g); try discriminate; reflexivity.
Qed.
Lemma inval_crl_reports : forall f s s' rs, inval_crl_rep f s = VRet (s', rs) ->
  m_rop s' = m_rop s /\ ((rs = [] /\ s' = s) \/ exists r, rs = [r] /\ ca_report f r).
Proof.
  intros f s s' rs H. unfold inval_crl_rep in H.
  assert (NO : VRet (s, []) = VRet (s', rs) -> m_rop s' = m_rop s /\ ((rs = [] /\ s' = s) \/ exists r, rs = [r] /\ ca_report f r))
    by (intros X; inversion X; auto).
  destruct (f_parent f) as [p|] eqn:FP; [|auto]. destruct (is_crl (f_type p)); [|auto].
  destruct (f_parent p) as [g|] eqn:PP; [|auto]. destruct (is_cer (f_type g)) eqn:GT; [|auto].
  destruct (v_path (m_v s) (f_path g)) as [a|]; [|auto]. vb H. destruct (r_obj y); auto. vb H. inversion H; subst. split; [reflexivity|].
  right. eexists. split; [reflexivity|]. split; [reflexivity|]. split; [right; reflexivity|].
  exists p, g. repeat split; auto. destruct (f_type g); try discriminate; reflexivity.
Qed.

Lemma bad_reports : forall e f s s' rs, bad_rep e f s = VRet (s', rs) ->
  m_rop s' = m_rop s /\ (forall r, In r e -> In r rs) /\ (forall r, In r rs -> In r e \/ ca_report f r) /\
  (v_valid (m_v s') = v_valid (m_v s) \/ exists r, In r rs /\ ca_report f r).
Proof.
  intros e f s s' rs H. unfold ErrReport.bad_rep in H. vb H. destruct y as (s1 & r1).
  assert (R1 : m_rop s1 = m_rop s /\ ((r1 = [] /\ s1 = s) \/ exists r, r1 = [r] /\ ca_report f r)).
  { destruct strict_manifests; [now apply inval_mft_reports|]. inversion E; subst. auto. }
  destruct R1 as (M1 & R1). destruct e as [|e0 e].
  - inversion H; subst. split; auto. split; [intros r []|]. destruct R1 as [(-> & ->)|(r & -> & C)].
    + split; [intros r []|auto].
    + split; [intros r' [<-|[]]; auto|]. right. exists r. split; [left; auto|auto].
  - vb H. destruct y as (s2 & r2). inversion H; subst. destruct (inval_crl_reports _ _ _ _ E0) as (M2 & R2).
    split; [congruence|]. split.
    { intros r I. apply in_or_app. right. change (e0 :: e ++ r2) with ((e0 :: e) ++ r2). apply in_or_app. auto. }
    split.
    { intros r I. apply in_app_or in I. destruct I as [I|I].
      - destruct R1 as [(-> & _)|(x & -> & C)]; [destruct I|]. destruct I as [<-|[]]. auto.
      - change (e0 :: e ++ r2) with ((e0 :: e) ++ r2) in I. apply in_app_or in I. destruct I as [I|I]; auto.
        destruct R2 as [(-> & _)|(x & -> & C)]; [destruct I|]. destruct I as [<-|[]]. auto. }
    destruct R1 as [(-> & ->)|(x & -> & C)].
    + destruct R2 as [(-> & ->)|(x & -> & C)]; auto. right. exists x. split; auto.
      change (e0 :: e ++ [x]) with ((e0 :: e) ++ [x]). apply in_or_app. right. apply in_or_app. right. left. auto.
    + right. exists x. split; [left; auto|auto].
Qed.

Lemma check_reports : forall f sha s s' ok rs, check_rep f sha s = VRet (s', ok, rs) ->
  m_rop s' = m_rop s /\ ((rs = [] /\ s' = s) \/ exists r, rs = [r] /\ ca_report f r) /\
  (ok = false -> exists h, fd_hash (f_desc f) = Some h /\ sha <> h /\ strict_hash = true) /\
  (ok = true -> strict_hash = true -> forall h, fd_hash (f_desc f) = Some h -> sha = h).
Proof.
  intros f sha s s' ok rs H. unfold ErrReport.check_rep in H. destruct (fd_hash (f_desc f)) as [h|].
  2:{ inversion H; subst. split; auto. split; auto. split; [discriminate|intros _ _ h X; discriminate]. }
  destruct strict_hash; [|inversion H; subst; split; auto; split; auto; split; discriminate].
  vb H. vb H. destruct y0 as (s1 & r1). inversion H; subst.
  assert (R1 : m_rop s' = m_rop s /\ ((rs = [] /\ s' = s) \/ exists r, rs = [r] /\ ca_report f r)).
  { destruct y; [now apply inval_mft_reports|]. inversion E0; subst. auto. }
  destruct R1 as (M1 & R1). split; auto. split; auto. split.
  - intros B. exists h. repeat split; auto. intros ->. rewrite (proj2 (beq_eq _ _) eq_refl) in B. discriminate.
  - intros B _ h' X. inversion X; subst. now apply beq_eq.
Qed.

(** * Validity is lost through invalidation only *)
Lemma add_cert_keeps : forall c t v v' valid ps a err k, add_cert sig_ok c t v = VRet (v', (valid, ps, a, err)) ->
  v_valid v k <> None -> v_valid v' k <> None.
Proof.
  intros c t v v' valid ps a err k H N.
  destruct (add_cert_cases _ _ _ _ _ _ _ _ _ H) as (_ & [(_ & _ & _ & _ & ->)|(_ & _ & ok & _ & _ & _ & ->)]); [exact N|].
  unfold store_cert. destruct (v_objects v (c_aki c)), valid; cbn; try exact N; unfold kset; destruct (beq _ _); try discriminate; exact N.
Qed.
Lemma check_tal_valid : forall f c v v1, check_tal f c v = VRet (Some v1) -> v_valid v1 = v_valid v.
Proof.
  intros f c v v1 H. unfold check_tal in H. destruct (f_parent f) as [p|]; [|congruence]. destruct (is_tal (f_type p)); [|congruence].
  destruct (v_tals v (f_path f)); [|congruence]. vb H. destruct (r_obj y); try discriminate. vb H. destruct y0; inversion H. reflexivity.
Qed.
Lemma resource_keeps : forall f d v v' x k, add_resource f d v = VRet (v', x) -> f_type f <> TCrl ->
  v_valid v k <> None -> v_valid v' k <> None.
Proof.
  intros f d v v' x k H T N. unfold Validator.add_resource in H. destruct (f_type f); try (inversion H; subst; exact N); try congruence.
  - destruct (dec_cert d) as [c|]; [|inversion H; subst; exact N]. vb H. destruct y as [v1|]; [|inversion H; subst; exact N].
    apply check_tal_valid in E. vb H. destruct y as (v2 & (((b & ps1) & a1) & e1)). inversion H; subst. cbn.
    apply (add_cert_keeps _ _ _ _ _ _ _ _ _ E0). now rewrite E.
  - destruct (dec_mft d) as [m|]; [|inversion H; subst; exact N]. vb H. destruct y as (v1 & (((b & ps1) & oa1) & e1)).
    unfold add_mft in E. destruct (extract_path_mft (mft_files m)) as [fs|]; [|inversion E; subst; inversion H; subst; exact N].
    vb E. destruct y as (v2 & (((b2 & ps2) & a2) & e2)). assert (K := add_cert_keeps _ _ _ _ _ _ _ _ k E0 N).
    destruct oa1; inversion E; subst; inversion H; subst. cbn. destruct (b2 && mft_inner m); exact K.
  - destruct (dec_roa d) as [r|]; [|inversion H; subst; exact N]. vb H. destruct y as (v1 & ((b & a1) & e1)).
    unfold add_roa in E. vb E. destruct y as (v2 & (((b2 & ps2) & a2) & e2)). assert (K := add_cert_keeps _ _ _ _ _ _ _ _ k E0 N).
    inversion E; subst; inversion H; subst. cbn. destruct (b2 && validate_entries (roa_entries r) && roa_inner r); exact K.
  - destruct (dec_tal d) as [t|]; inversion H; subst; exact N.
Qed.

Lemma add_reports : forall f d s s' rs, add_rep f d s = VRet (s', rs) ->
  exists v valid subs oa err e, add_resource f d (m_v s) = VRet (v, (valid, subs, oa, err)) /\
    resource_error f d (m_v s) = VRet e /\ (valid = true -> e = None /\ oa <> None) /\ (f_type f <> TCrl -> valid = is_none e) /\
    m_v s' = v /\
    rs = match e with Some k => [mkRep (Some k) (Some f) None] | None => if valid : bool then [] else [mkRep None None None] end /\
    (add_invalid || valid = true -> m_rop s' (f_id f) = oa /\ forall i, i <> f_id f -> m_rop s' i = m_rop s i) /\
    (add_invalid || valid = false -> m_rop s' = m_rop s).
Proof.
  intros f d s s' rs H. unfold ErrReport.add_rep in H. vb H. destruct y as (v & (((valid & subs) & oa) & err)).
  destruct (resource_err _ _ _ _ _ _ _ _ E) as (e & E1 & _ & E2 & E3). rewrite E1 in H. cbn [vbind] in H.
  exists v, valid, subs, oa, err, e. split; auto. split; auto. split; auto. split; auto.
  destruct (add_invalid || valid) eqn:A.
  - destruct (put_files_spec (number_files (m_next s) (Some f) subs)
      (mkM v (m_queue s) (kset (m_explored s) (compute_path f) true) (m_unique s) (m_rop s) (m_next s) (m_tick s))) as (added & PF & _).
    injection H as H1 H2. subst s'. cbn [m_v m_rop]. rewrite PF. cbn [m_v m_rop]. split; auto. split; [now rewrite <- H2|].
    split; [|discriminate]. intros _. rewrite Nat.eqb_refl. split; auto. intros i NI. apply Nat.eqb_neq in NI. now rewrite NI.
  - inversion H; subst. cbn [m_v m_rop]. split; auto. split; auto. split; [discriminate|auto].
Qed.

(** * One iteration *)
Lemma next_file_cases : forall f s r, get_next_file disk synced sha256 f s = VRet r ->
  match r with
  | SErr => kin (m_explored s) (compute_path f) = true \/ (unreadable disk f /\ synced (f_path f) = true)
  | SNone => unreadable disk f /\ synced (f_path f) = false
  | SData d sha => exists raw, holds disk f raw d /\ sha = sha256 raw
  end.
Proof.
  intros f s r H. unfold get_next_file in H. destruct (kin (m_explored s) (compute_path f)) eqn:K; [inversion H; subst; auto|].
  unfold get_file in H. unfold unreadable, holds. destruct (disk (compute_path f)) as [raw|].
  2:{ assert (U : ~ exists raw d, None = Some raw /\ (if is_tal (f_type f) then d = raw else ber2der raw = BOk d)) by (intros (? & ? & ? & _); discriminate).
      destruct (synced (f_path f)); inversion H; subst; auto. }
  destruct (is_tal (f_type f)); [inversion H; subst; eauto|].
  destruct (ber2der raw) as [d| | |] eqn:B; try discriminate.
  - inversion H; subst. eauto.
  - assert (U : ~ exists raw0 d, Some raw = Some raw0 /\ ber2der raw0 = BOk d) by (intros (? & ? & X & Y); inversion X; subst; congruence).
    destruct (synced (f_path f)); inversion H; subst; auto.
Qed.

(** What happened to the file [f] and what was sent meanwhile. *)
Inductive outcome (f : pkifile) (s s' : mgr) (rs : list report) : Prop :=
| out_accepted : m_rop s' (f_id f) <> None -> (forall r, In r rs -> ca_report f r) -> outcome f s s' rs
| out_reported : m_rop s' = m_rop s -> (exists r, In r rs /\ own_report f r) ->
    (forall r, In r rs -> own_report f r \/ ca_report f r) -> outcome f s s' rs
| out_seen : m_rop s' = m_rop s -> kin (m_explored s) (compute_path f) = true -> outcome f s s' rs
| out_absent : m_rop s' = m_rop s -> unreadable disk f -> synced (f_path f) = false ->
    (forall r, In r rs -> ca_report f r) -> outcome f s s' rs
| out_crl : m_rop s' = m_rop s -> f_type f = TCrl -> In (mkRep None None None) rs ->
    (forall r, In r rs -> r = mkRep None None None \/ ca_report f r) -> outcome f s s' rs.

Lemma file_outcome : forall f s s' rs, add_invalid = false -> file_rep f s = VRet (s', rs) ->
  outcome f s s' rs /\ (forall i, i <> f_id f -> m_rop s' i = m_rop s i) /\
  (m_rop s (f_id f) <> None -> m_rop s' (f_id f) <> None).
Proof.
  intros f s s' rs AI H. unfold ErrReport.file_rep in H. vb H. apply next_file_cases in E. destruct y as [| |d sha].
  - destruct (bad_reports _ _ _ _ _ H) as (M & I1 & I2 & _). split; [|rewrite M; auto]. destruct E as [E|(U & SY)].
    + apply out_seen; auto.
    + destruct (kin (m_explored s) (compute_path f)) eqn:K; [apply out_seen; auto|].
      unfold fetch_error in I1, I2. rewrite K in I1, I2.
      assert (OR : own_report f (mkRep (Some EFile) (Some f) None)) by (repeat split; discriminate).
      apply out_reported; auto. { eexists. split; [apply I1; left; reflexivity|exact OR]. }
      intros r IR. destruct (I2 _ IR) as [[<-|[]]|C]; auto.
  - destruct (bad_reports _ _ _ _ _ H) as (M & _ & I2 & _). split; [|rewrite M; auto]. destruct E as (U & SY).
    apply out_absent; auto. intros r IR. destruct (I2 _ IR) as [[]|C]; auto.
  - vb H. destruct y as ((s1 & ok) & r1). vb H. destruct y as (s2 & r2). injection H as <- <-.
    destruct (check_reports _ _ _ _ _ _ E0) as (M1 & C1 & _).
    assert (CA : forall r, In r r1 -> ca_report f r).
    { intros r IR. destruct C1 as [(-> & _)|(x & -> & C)]; [destruct IR|]. destruct IR as [<-|[]]. exact C. }
    destruct ok.
    + destruct (add_reports _ _ _ _ _ E1) as (v & valid & subs & oa & err & e & A1 & A2 & A3 & A4 & A5 & -> & A7 & A8).
      rewrite AI in A7, A8. cbn [orb] in A7, A8. destruct valid.
      * destruct (A3 eq_refl) as (-> & OA). destruct (A7 eq_refl) as (R1 & R2). split.
        { apply out_accepted; [congruence|]. rewrite app_nil_r. exact CA. }
        split; [intros i NI; rewrite (R2 _ NI); congruence|congruence].
      * specialize (A8 eq_refl). split; [|rewrite A8, M1; auto]. destruct e as [k|].
        { assert (OR : own_report f (mkRep (Some k) (Some f) None)) by (repeat split; discriminate).
          apply out_reported; [congruence| |].
          - eexists. split; [apply in_or_app; right; left; reflexivity|exact OR].
          - intros r IR. apply in_app_or in IR. destruct IR as [IR|[<-|[]]]; auto. }
        { destruct (f_type f) eqn:FT; try (specialize (A4 ltac:(discriminate)); discriminate).
          apply out_crl; auto; [congruence|apply in_or_app; right; left; reflexivity|].
          intros r IR. apply in_app_or in IR. destruct IR as [IR|[<-|[]]]; auto. }
    + destruct (bad_reports _ _ _ _ _ E1) as (M2 & I1 & I2 & _). split; [|rewrite M2, M1; auto].
      assert (OR : own_report f (mkRep (Some EHash) (Some f) None)) by (repeat split; discriminate).
      apply out_reported; [congruence| |].
      * eexists. split; [apply in_or_app; right; apply I1; left; reflexivity|exact OR].
      * intros r IR. apply in_app_or in IR. destruct IR as [IR|IR]; auto. destruct (I2 _ IR) as [[<-|[]]|C]; auto.
Qed.

Lemma iter_loss : forall s s' rs k, iter_rep s = VRet (s', rs) -> v_valid (m_v s) k <> None -> v_valid (m_v s') k = None ->
  exists f q, m_queue s = f :: q /\ (f_type f = TCrl \/ exists r, In r rs /\ ca_report f r).
Proof.
  intros s s' rs k H V1 V2. unfold ErrReport.iter_rep in H. destruct (m_queue s) as [|f q]; [inversion H; subst; contradiction|].
  exists f, q. split; auto. set (s0 := mkM (m_v s) q (m_explored s) (m_unique s) (m_rop s) (m_next s) (S (m_tick s))) in H.
  assert (V0 : v_valid (m_v s0) k <> None) by exact V1. clearbody s0.
  unfold ErrReport.file_rep in H. vb H. destruct y as [| |d sha].
  - destruct (bad_reports _ _ _ _ _ H) as (_ & _ & _ & [L|L]); [congruence|auto].
  - destruct (bad_reports _ _ _ _ _ H) as (_ & _ & _ & [L|L]); [congruence|auto].
  - vb H. destruct y as ((s1 & ok) & r1). vb H. destruct y as (s2 & r2). injection H as <- <-.
    destruct (check_reports _ _ _ _ _ _ E0) as (_ & [(-> & ->)|(x & -> & C)] & _).
    2:{ right. exists x. split; [left; auto|auto]. }
    destruct ok.
    + destruct (add_reports _ _ _ _ _ E1) as (v & valid & subs & oa & err & e & A1 & _ & _ & _ & A5 & _).
      destruct (f_type f) eqn:FT; auto; exfalso; apply (resource_keeps _ _ _ _ _ k A1); try congruence.
    + destruct (bad_reports _ _ _ _ _ E1) as (_ & _ & _ & [L|L]); [congruence|auto].
Qed.
End Reports.
