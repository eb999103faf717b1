(** Each valid ROA of an exploration is registered under the file it was read
    from. *)
From Coq Require Import List ZArith Lia Bool.
From Verif.Model Require Import Base NetIP CertRes Roa Str Ber Tal Validator Explore.
From Verif.Spec Require Import Trust Discovery CtSpec.
From Verif.Proofs Require Import StrProofs HeapProofs Invalidate BerProofs ValidatorInv ValidatorRun ValidatorMono ValidatorFacts
  ValidatorMisc ValidatorPanic ExploreFacts ExploreInv ExploreThm CtProofs.
Import ListNotations.
Open Scope Z_scope.

Definition roa_at (h : list resource) (a : addr) (f : option pkifile) (x : roa) : Prop :=
  exists r, nth_error h a = Some r /\ r_obj r = ORoa x /\ r_file r = f.

(** The ROAs below address [n] are the same in both heaps. *)
Definition keeps (n : nat) (h h' : list resource) : Prop :=
  (n <= length h <= length h')%nat /\ forall a f x, (a < n)%nat -> roa_at h a f x <-> roa_at h' a f x.

Lemma keeps_refl : forall n h, (n <= length h)%nat -> keeps n h h.
Proof. intros n h H. split; [lia|tauto]. Qed.
Lemma keeps_trans : forall n a b c, keeps n a b -> keeps n b c -> keeps n a c.
Proof.
  intros n a b c (L1 & H1) (L2 & H2). split; [lia|]. intros x f r Hx. rewrite H1 by exact Hx. now apply H2.
Qed.
Lemma keeps_alloc : forall n h h' r, keeps n h h' -> keeps n h (h' ++ [r]).
Proof.
  intros n h h' r (L & H). split; [rewrite app_length; cbn; lia|]. intros a f x Ha. rewrite H by exact Ha.
  unfold roa_at. rewrite nth_error_app1 by lia. tauto.
Qed.
Lemma keeps_upd : forall n h h' p g, keeps n h h' ->
  (p >= n)%nat \/ (forall r, r_obj (g r) = r_obj r /\ r_file (g r) = r_file r) -> keeps n h (heap_upd h' p g).
Proof.
  intros n h h' p g (L & H) G. split; [rewrite length_heap_upd; lia|]. intros a f x Ha. rewrite H by exact Ha.
  unfold roa_at. rewrite nth_heap_upd. destruct (Nat.eqb_spec a p) as [->|N]; [|tauto].
  destruct G as [G|G]; [lia|]. split.
  - intros (r & E & O & F). rewrite E. cbn. exists (g r). destruct (G r) as [G1 G2]. rewrite G1, G2. auto.
  - intros (r & E & O & F). destruct (nth_error h' p) as [r0|]; [|discriminate]. cbn in E. injection E as <-.
    destruct (G r0) as [G1 G2]. rewrite G1 in O. rewrite G2 in F. exists r0. auto.
Qed.
Lemma keeps_child : forall n h h' p c, keeps n h h' -> keeps n h (heap_upd h' p (with_child c)).
Proof. intros n h h' p c H. apply keeps_upd; [exact H|]. right. intros r. split; reflexivity. Qed.

Lemma hobj_child : forall h p c x, hobj (heap_upd h p (with_child c)) x = hobj h x.
Proof.
  intros h p c x. unfold hobj. rewrite nth_heap_upd. destruct (Nat.eqb x p); [|reflexivity].
  destruct (nth_error h x); reflexivity.
Qed.

Section Objects.
Variable sig_ok : cert -> cert -> bool.
Variable crl_sig_ok : cert -> crl -> bool.
Variable dec_tal : bytes -> option tal.
Variable dec_cert : bytes -> option cert.
Variable dec_roa : bytes -> option roa.
Variable dec_mft : bytes -> option mft.
Variable dec_crl : bytes -> option crl.
Variable hex_sha1 : bytes -> bytes.
Notation add_resource := (add_resource sig_ok crl_sig_ok dec_tal dec_cert dec_roa dec_mft dec_crl hex_sha1).

Lemma add_cert_keeps : forall c tr v v' valid ps a err,
  add_cert sig_ok c tr v = VRet (v', (valid, ps, a, err)) ->
  a = length (v_heap v) /\ keeps (length (v_heap v)) (v_heap v) (v_heap v') /\ (a < length (v_heap v'))%nat /\
  v_validroa v' = v_validroa v /\ hobj (v_heap v') a = Some (OCert c).
Proof.
  intros c tr v v' valid ps a err E. destruct (add_cert_cases _ _ _ _ _ _ _ _ _ E) as (-> & C).
  split; [reflexivity|].
  assert (K : forall par, keeps (length (v_heap v)) (v_heap v) (v_heap v ++ [new_res TUnknown par None (OCert c)]))
    by (intros par; apply keeps_alloc, keeps_refl; lia).
  assert (O : forall par, hobj (v_heap v ++ [new_res TUnknown par None (OCert c)]) (length (v_heap v)) = Some (OCert c)).
  { intros par. unfold hobj. rewrite nth_error_app2, Nat.sub_diag by lia. reflexivity. }
  destruct C as [(_ & _ & _ & _ & ->)|(_ & _ & ok & _ & _ & _ & ->)].
  - cbn. split; [apply K|]. split; [rewrite app_length; cbn; lia|]. split; [reflexivity|apply O].
  - unfold store_cert. destruct (v_objects v (c_aki c)) as [p|]; destruct valid; cbn.
    + split; [apply keeps_child, K|]. split; [rewrite length_heap_upd, app_length; cbn; lia|]. split; [reflexivity|].
      rewrite hobj_child. apply O.
    + split; [apply K|]. split; [rewrite app_length; cbn; lia|]. split; [reflexivity|apply O].
    + split; [apply K|]. split; [rewrite app_length; cbn; lia|]. split; [reflexivity|apply O].
    + split; [apply K|]. split; [rewrite app_length; cbn; lia|]. split; [reflexivity|apply O].
Qed.

Lemma not_roa_at : forall h a o f x, hobj h a = Some o -> (forall y, o <> ORoa y) -> ~ roa_at h a f x.
Proof.
  intros h a o f x H N (r & E & O & _). unfold hobj in H. rewrite E in H. cbn in H. injection H as H. congruence.
Qed.

Lemma invalidate_validroa : forall k v v' x a, invalidate k v = VRet v' -> v_validroa v' x = Some a -> v_validroa v x = Some a.
Proof.
  intros k v v' x a H V. apply invalidate_spec in H. destruct H as (D & -> & _).
  revert v V. induction D as [|d D IH]; intros v V; [exact V|].
  cbn in V. unfold drop_keys in *. cbn in V. apply IH in V. cbn in V. unfold kdel in V.
  destruct (beq _ _); [discriminate|exact V].
Qed.

Lemma revoke_validroa : forall aki l v v' x a, revoke_loop aki l v = VRet v' -> v_validroa v' x = Some a -> v_validroa v x = Some a.
Proof.
  intros aki. induction l as [|z l IH]; intros v v' x a H V; cbn [revoke_loop] in H.
  - injection H as <-. exact V.
  - destruct (match v_serial v (serial_key aki z) with Some a => _ | None => _ end) as [v1| |] eqn:E;
      cbn [vbind] in H; try discriminate.
    apply (IH _ _ _ _ H) in V. cbn in V.
    destruct (v_serial v (serial_key aki z)) as [b|]; [|injection E as <-; exact V].
    destruct (deref (v_heap v) b) as [r| |]; cbn [vbind] in E; try discriminate.
    destruct (r_obj r); try discriminate. destruct (c_serial c =? z); [|injection E as <-; exact V].
    eapply invalidate_validroa; eauto.
Qed.

Lemma add_resource_keeps : forall f d v v' valid subs oa err,
  add_resource f d v = VRet (v', (valid, subs, oa, err)) ->
  keeps (length (v_heap v)) (v_heap v) (v_heap v') /\
  (forall a, oa = Some a -> (length (v_heap v) <= a < length (v_heap v'))%nat /\
     forall g x, roa_at (v_heap v') a g x -> g = Some f) /\
  (forall k a, v_validroa v' k = Some a -> v_validroa v k = Some a \/
     (valid = true /\ oa = Some a /\ exists x, roa_at (v_heap v') a (Some f) x)).
Proof.
  intros f d v v' valid subs oa err E. unfold Validator.add_resource, add_error in E.
  assert (SAME : v' = v -> oa = None ->
    keeps (length (v_heap v)) (v_heap v) (v_heap v') /\
    (forall a, oa = Some a -> (length (v_heap v) <= a < length (v_heap v'))%nat /\
       forall g x, roa_at (v_heap v') a g x -> g = Some f) /\
    (forall k a, v_validroa v' k = Some a -> v_validroa v k = Some a \/
       (valid = true /\ oa = Some a /\ exists x, roa_at (v_heap v') a (Some f) x))).
  { intros -> ->. split; [apply keeps_refl; lia|]. split; [discriminate|auto]. }
  destruct (f_type f) eqn:FT; try (injection E as <- <- <- <- <-; apply SAME; reflexivity).
  - destruct (dec_cert d) as [c|] eqn:DC; [|injection E as <- <- <- <- <-; apply SAME; reflexivity].
    destruct (check_tal f c v) as [ov| |] eqn:CT; cbn [vbind] in E; try discriminate.
    destruct ov as [v1|]; [|injection E as <- <- <- <- <-; apply SAME; reflexivity].
    assert (H1 : keeps (length (v_heap v)) (v_heap v) (v_heap v1) /\ v_validroa v1 = v_validroa v /\ length (v_heap v1) = length (v_heap v)).
    { pose proof (keeps_refl (length (v_heap v)) (v_heap v) (le_n _)) as KR.
      unfold check_tal in CT. destruct (f_parent f) as [p|]; [|injection CT as <-; auto].
      destruct (is_tal (f_type p)); [|injection CT as <-; auto].
      destruct (v_tals v (f_path f)) as [a|]; [|injection CT as <-; auto].
      destruct (deref (v_heap v) a) as [r| |]; cbn [vbind] in CT; try discriminate. destruct (r_obj r); try discriminate.
      destruct (vgo _) as [ok| |]; cbn [vbind] in CT; try discriminate. destruct ok; [|discriminate]. injection CT as <-.
      cbn. split; [|split; [reflexivity|apply length_heap_upd]]. apply keeps_upd; [exact KR|]. right. intros r0. split; reflexivity. }
    destruct H1 as (K1 & R1 & L1).
    destruct (add_cert sig_ok c (fd_trust (f_desc f)) v1) as [[v2 [[[va ps] a] er]]| |] eqn:AC; cbn [vbind] in E; try discriminate.
    injection E as <- <- <- <- <-. destruct (add_cert_keeps _ _ _ _ _ _ _ _ AC) as (-> & K2 & L2 & R2 & O2). cbn.
    rewrite L1 in K2.
    assert (K3 : keeps (length (v_heap v)) (v_heap v) (heap_upd (v_heap v2) (length (v_heap v1)) (fun x => with_file (Some f) (with_type TCer x)))).
    { apply keeps_upd; [|left; lia]. eapply keeps_trans; eauto. }
    split; [exact K3|]. split.
    + intros a H. injection H as <-. rewrite length_heap_upd. split; [lia|]. intros g x HR. exfalso. revert HR.
      eapply not_roa_at with (o := OCert c); [|discriminate]. unfold hobj in O2 |- *. rewrite nth_heap_upd, Nat.eqb_refl.
      destruct (nth_error (v_heap v2) (length (v_heap v1))) as [r0|]; [|discriminate]. cbn in *. exact O2.
    + intros k a H. left. congruence.
  - destruct (dec_mft d) as [m|] eqn:DC; [|injection E as <- <- <- <- <-; apply SAME; reflexivity].
    unfold add_mft in E. destruct (extract_path_mft (mft_files m)) as [paths|]; cbn [vbind] in E.
    2:{ injection E as <- <- <- <- <-. apply SAME; reflexivity. }
    destruct (add_cert sig_ok (mft_cert m) false v) as [[v1 [[[va ps] a] er]]| |] eqn:AC; cbn [vbind] in E; try discriminate.
    destruct (add_cert_keeps _ _ _ _ _ _ _ _ AC) as (-> & K & L & R & _).
    set (h2 := heap_upd (v_heap v1) (length (v_heap v)) (fun x => with_type TMftCer (with_file (Some f) x))).
    set (h3 := heap_upd (heap_upd (h2 ++ [new_res TMft (Some (length (v_heap v))) (Some f) (OMft m)]) (length (v_heap v)) (with_child (length h2))) (length h2) (with_file (Some f))).
    assert (L2 : length h2 = length (v_heap v1)) by apply length_heap_upd.
    assert (K3 : keeps (length (v_heap v)) (v_heap v) h3).
    { apply keeps_upd; [|left; lia]. apply keeps_child, keeps_alloc, keeps_upd; [exact K|left; lia]. }
    assert (L3 : length h3 = S (length h2)) by (unfold h3; rewrite !length_heap_upd, app_length; cbn; lia).
    assert (O3 : forall g x, ~ roa_at h3 (length h2) g x).
    { intros g x. eapply not_roa_at with (o := OMft m); [|discriminate]. unfold hobj, h3. rewrite nth_heap_upd, Nat.eqb_refl, nth_heap_upd.
      destruct (Nat.eqb_spec (length h2) (length (v_heap v))); [lia|]. rewrite nth_error_app2, Nat.sub_diag by lia. reflexivity. }
    injection E as E1 <- <- E4 <-. change (Some (length h2) = oa) in E4. subst oa.
    assert (HV : v_heap v' = h3) by (rewrite <- E1; destruct (va && mft_inner m); reflexivity).
    assert (VR : v_validroa v' = v_validroa v1) by (rewrite <- E1; destruct (va && mft_inner m); reflexivity).
    rewrite HV, VR, R. split; [exact K3|]. split.
    + intros a H. injection H as <-. split; [lia|]. intros g x HR. exfalso. eapply O3. exact HR.
    + auto.
  - destruct (dec_roa d) as [m|] eqn:DC; [|injection E as <- <- <- <- <-; apply SAME; reflexivity].
    unfold add_roa in E.
    destruct (add_cert sig_ok (roa_cert m) false v) as [[v1 [[[va ps] a] er]]| |] eqn:AC; cbn [vbind] in E; try discriminate.
    destruct (add_cert_keeps _ _ _ _ _ _ _ _ AC) as (-> & K & L & R & _).
    set (h2 := heap_upd (v_heap v1) (length (v_heap v)) (fun x => with_type TRoaCer (with_file (Some f) x))).
    set (h3 := heap_upd (heap_upd (h2 ++ [new_res TRoa (Some (length (v_heap v))) (Some f) (ORoa m)]) (length (v_heap v)) (with_child (length h2))) (length h2) (with_file (Some f))).
    assert (L2 : length h2 = length (v_heap v1)) by apply length_heap_upd.
    assert (K3 : keeps (length (v_heap v)) (v_heap v) h3).
    { apply keeps_upd; [|left; lia]. apply keeps_child, keeps_alloc, keeps_upd; [exact K|left; lia]. }
    assert (L3 : length h3 = S (length h2)) by (unfold h3; rewrite !length_heap_upd, app_length; cbn; lia).
    assert (N3 : exists r, nth_error h3 (length h2) = Some r /\ r_obj r = ORoa m /\ r_file r = Some f).
    { unfold h3. rewrite nth_heap_upd, Nat.eqb_refl, nth_heap_upd.
      destruct (Nat.eqb_spec (length h2) (length (v_heap v))); [lia|]. rewrite nth_error_app2, Nat.sub_diag by lia.
      cbn. eexists. split; [reflexivity|]. split; reflexivity. }
    injection E as E1 E2 <- E4 <-. change (Some (length h2) = oa) in E4. subst oa. rewrite E2 in E1.
    assert (HV : v_heap v' = h3) by (rewrite <- E1; destruct valid; reflexivity).
    assert (VR : v_validroa v' = if valid then kset (v_validroa v1) (c_ski (roa_cert m)) (length h2) else v_validroa v1)
      by (rewrite <- E1; destruct valid; reflexivity).
    rewrite HV, VR, R. split; [exact K3|]. split.
    + intros a H. injection H as <-. split; [lia|]. intros g x (r & N & _ & <-). destruct N3 as (r' & N' & _ & F'). congruence.
    + intros k a H. destruct valid; [|auto]. unfold kset in H. destruct (beq _ _) in H.
      * injection H as <-. right. split; [reflexivity|]. split; [reflexivity|]. exists m. exact N3.
      * left. exact H.
  - destruct (dec_crl d) as [l|]; [|injection E as <- <- <- <- <-; apply SAME; reflexivity].
    destruct (add_crl crl_sig_ok l v) as [[v1 [va a]]| |] eqn:AC; cbn [vbind] in E; try discriminate.
    destruct (add_crl_cases _ _ _ _ _ _ AC) as (-> & C).
    set (h1 := v_heap v ++ [new_res TCrl (v_objects v (crl_aki (crl_exts l) [])) None (OCrl l)]) in *.
    assert (K1 : keeps (length (v_heap v)) (v_heap v) h1) by (apply keeps_alloc, keeps_refl; lia).
    assert (O1 : hobj h1 (length (v_heap v)) = Some (OCrl l)).
    { unfold hobj, h1. rewrite nth_error_app2, Nat.sub_diag by lia. reflexivity. }
    assert (H1 : keeps (length (v_heap v)) (v_heap v) (v_heap v1) /\ (length (v_heap v) < length (v_heap v1))%nat /\
      hobj (v_heap v1) (length (v_heap v)) = Some (OCrl l) /\
      forall k a, v_validroa v1 k = Some a -> v_validroa v k = Some a).
    { destruct C as [(_ & ->)|(_ & p & pc & v3 & _ & _ & _ & _ & R & ->)].
      - cbn. fold h1. split; [exact K1|]. split; [unfold h1; rewrite app_length; cbn; lia|]. split; [exact O1|auto].
      - pose proof (revoke_loop_heap _ _ _ _ R) as RH. cbn in RH. fold h1 in RH. cbn. rewrite RH.
        split; [apply keeps_child, K1|]. split; [rewrite length_heap_upd; unfold h1; rewrite app_length; cbn; lia|].
        split; [rewrite hobj_child; exact O1|].
        intros k a H. apply (revoke_validroa _ _ _ _ _ _ R) in H. exact H. }
    destruct H1 as (K2 & L2 & O2 & R2).
    destruct (grandparent_path f) as [want| |]; cbn [vbind] in E; try discriminate.
    destruct (parent_file_path v1 (length (v_heap v))) as [have| |]; cbn [vbind] in E; try discriminate.
    destruct (beq want have); injection E as <- <- <- <- <-.
    + cbn. split; [apply keeps_upd; [exact K2|left; lia]|]. split; [|intros k a H; left; auto].
      intros a H. injection H as <-. rewrite length_heap_upd. split; [lia|]. intros g x HR. exfalso. revert HR.
      eapply not_roa_at with (o := OCrl l); [|discriminate]. unfold hobj in O2 |- *. rewrite nth_heap_upd, Nat.eqb_refl.
      destruct (nth_error (v_heap v1) (length (v_heap v))) as [r0|]; [|discriminate]. cbn in *. exact O2.
    + split; [exact K2|]. split; [discriminate|intros k a H; left; auto].
  - destruct (dec_tal d) as [t|]; [|injection E as <- <- <- <- <-; apply SAME; reflexivity]. cbn in E. injection E as <- <- <- <- <-.
    cbn. split; [apply keeps_upd; [apply keeps_alloc, keeps_refl; lia|left; lia]|]. split; [|auto].
    intros a H. injection H as <-. rewrite length_heap_upd, app_length. cbn. split; [lia|]. intros g x HR. exfalso. revert HR.
    eapply not_roa_at with (o := OTal t); [|discriminate]. unfold hobj. rewrite nth_heap_upd, Nat.eqb_refl, nth_error_app2, Nat.sub_diag by lia.
    reflexivity.
Qed.
End Objects.

Section Explored.
Variable sig_ok : cert -> cert -> bool.
Variable crl_sig_ok : cert -> crl -> bool.
Variable dec_tal : bytes -> option tal.
Variable dec_cert : bytes -> option cert.
Variable dec_roa : bytes -> option roa.
Variable dec_mft : bytes -> option mft.
Variable dec_crl : bytes -> option crl.
Variable hex_sha1 : bytes -> bytes.
Variable disk : bytes -> option bytes.
Variable synced : bytes -> bool.
Variable sha256 : bytes -> bytes.
Variable clock : nat -> Z * Z.
Variable strict_manifests : bool.
Variable strict_hash : bool.
Variable add_invalid : bool.
Variable init : list fdesc.
Notation explore_iter := (explore_iter sig_ok crl_sig_ok dec_tal dec_cert dec_roa dec_mft dec_crl hex_sha1 disk synced sha256 clock strict_manifests strict_hash add_invalid).
Notation explore_add := (explore_add sig_ok crl_sig_ok dec_tal dec_cert dec_roa dec_mft dec_crl hex_sha1 add_invalid).
Notation MInv := (MInv sig_ok crl_sig_ok dec_tal dec_cert dec_roa dec_mft dec_crl hex_sha1 disk sha256 clock strict_manifests strict_hash add_invalid init).
Notation invals := (invals sig_ok crl_sig_ok dec_tal dec_cert dec_roa dec_mft dec_crl hex_sha1).
Notation run := (run sig_ok crl_sig_ok dec_tal dec_cert dec_roa dec_mft dec_crl hex_sha1).

Definition known_roas (s : mgr) : Prop :=
  (forall k a, v_validroa (m_v s) k = Some a ->
     exists f x, roa_at (v_heap (m_v s)) a (Some f) x /\ m_rop s (f_id f) = Some a) /\
  (forall i a, m_rop s i = Some a -> (a < length (v_heap (m_v s)))%nat /\
     forall g x, roa_at (v_heap (m_v s)) a g x -> exists f, g = Some f /\ f_id f = i).

Lemma invals_keeps : forall v v', invals v v' ->
  v_heap v' = v_heap v /\ forall k a, v_validroa v' k = Some a -> v_validroa v k = Some a.
Proof.
  intros v v' (ops & F & R). revert v R. induction F as [|o ops Fo F IH]; intros v R; cbn [Validator.run] in R.
  - injection R as <-. auto.
  - destruct (step sig_ok crl_sig_ok dec_tal dec_cert dec_roa dec_mft dec_crl hex_sha1 o v) as [v1| |] eqn:S; cbn [vbind] in R; try discriminate.
    destruct (IH _ R) as (H1 & H2). destruct o; try destruct Fo. cbn [Validator.step] in S. split.
    + rewrite H1. eapply invalidate_heap; eauto.
    + intros k' a K. eapply invalidate_validroa; eauto.
Qed.

Lemma known_invals : forall s v' q ex un nx tk, known_roas s -> invals (m_v s) v' ->
  known_roas (mkM v' q ex un (m_rop s) nx tk).
Proof.
  intros s v' q ex un nx tk (A & B) I. destruct (invals_keeps _ _ I) as (H & V). unfold known_roas. cbn [m_v m_rop].
  rewrite H. split; [|exact B]. intros k a K. apply A with k. apply V. exact K.
Qed.

Lemma known_add : forall s f d s', known_roas s -> m_rop s (f_id f) = None -> explore_add f d s = VRet s' -> known_roas s'.
Proof.
  intros s f d s' (A & B) RN H. unfold Explore.explore_add in H.
  destruct (add_resource _ _ _ _ _ _ _ _ f d (m_v s)) as [[v [[[valid subs] oa] err]]| |] eqn:E; cbn [vbind] in H; try discriminate.
  destruct (add_resource_keeps _ _ _ _ _ _ _ _ _ _ _ _ _ _ _ _ E) as ((L & K) & O & V).
  assert (OLD : forall a g x, (a < length (v_heap (m_v s)))%nat -> roa_at (v_heap v) a g x -> roa_at (v_heap (m_v s)) a g x).
  { intros a g x Ha R. apply K; assumption. }
  assert (LT : forall h a g x, roa_at h a g x -> (a < length h)%nat).
  { intros h a g x (r & N & _). apply nth_error_Some. congruence. }
  destruct (add_invalid || valid) eqn:AV.
  - injection H as <-. match goal with |- context [put_files ?l ?t] => destruct (put_files_spec l t) as (added & PE & _) end.
    rewrite PE. cbn [m_v m_rop]. unfold known_roas. cbn [m_v m_rop]. split.
    + intros k a HK. destruct (V _ _ HK) as [HK'|(_ & -> & x & R)].
      * destruct (A _ _ HK') as (g & x & R & RG). exists g, x.
        split; [apply K; [eapply LT; eauto|exact R]|]. destruct (Nat.eqb_spec (f_id g) (f_id f)); [congruence|exact RG].
      * exists f, x. rewrite Nat.eqb_refl. auto.
    + intros i a HR. destruct (Nat.eqb_spec i (f_id f)) as [->|N].
      * destruct (O _ HR) as (O1 & O2). split; [lia|]. intros g x R. exists f. split; [eapply O2; eauto|reflexivity].
      * destruct (B _ _ HR) as (B1 & B2). split; [lia|]. intros g x R. eapply B2. eapply OLD; eauto.
  - injection H as <-. apply orb_false_iff in AV. destruct AV as [_ ->]. unfold known_roas. cbn [m_v m_rop]. split.
    + intros k a HK. destruct (V _ _ HK) as [HK'|(HV & _)]; [|discriminate].
      destruct (A _ _ HK') as (g & x & R & RG). exists g, x. split; [apply K; [eapply LT; eauto|exact R]|exact RG].
    + intros i a HR. destruct (B _ _ HR) as (B1 & B2). split; [lia|]. intros g x R. eapply B2. eapply OLD; eauto.
Qed.

Lemma known_step : forall now T P s f q s', MInv now T P s -> known_roas s -> m_queue s = f :: q ->
  explore_iter s = VRet s' -> known_roas s'.
Proof.
  intros now T P s f q s' M KR Q H. assert (I := minv_inv _ _ _ _ _ _ _ _ _ _ _ _ _ _ _ _ _ _ _ M).
  unfold Explore.explore_iter in H. rewrite Q in H.
  set (s0 := mkM (m_v s) q (m_explored s) (m_unique s) (m_rop s) (m_next s) (S (m_tick s))) in *.
  assert (FT : In f T) by (apply (mi_in _ _ _ _ _ _ _ _ _ _ _ _ _ _ _ _ _ _ _ M); rewrite Q; apply in_or_app; right; left; auto).
  assert (NFP : ~ In f P).
  { assert (ND := mi_nodup _ _ _ _ _ _ _ _ _ _ _ _ _ _ _ _ _ _ _ M). rewrite Q, map_app in ND. cbn [map] in ND.
    apply NoDup_remove_2 in ND. intros K. apply ND. apply in_or_app. left. apply in_map. exact K. }
  assert (RN : m_rop s (f_id f) = None).
  { destruct (m_rop s (f_id f)) as [a|] eqn:R; auto.
    destruct (lookup_reg _ _ _ _ _ _ _ _ _ _ _ _ _ _ _ _ _ _ _ _ _ M FT R) as (_ & _ & _ & K & _). contradiction. }
  assert (K0 : known_roas s0) by exact KR.
  assert (BAD : forall err s1, s1 = set_v (m_v s1) s0 -> invals (m_v s) (m_v s1) ->
    explore_bad strict_manifests err f s1 = VRet s' -> known_roas s').
  { intros err s1 S1 IV EB. destruct (ext_invals _ _ _ _ _ _ _ _ _ _ I IV) as (X1 & I1).
    eapply explore_bad_spec in EB; [|exact I1]. destruct EB as (EB1 & EB2 & _).
    rewrite EB1, S1. apply known_invals with (s := s); [exact KR|]. eapply invals_trans; eauto. }
  unfold Explore.explore_file in H.
  destruct (get_next_file disk synced sha256 f s0) as [[| |d sha]| |]; cbn [vbind] in H; try discriminate.
  - eapply (BAD true s0); eauto. apply invals_refl.
  - eapply (BAD false s0); eauto. apply invals_refl.
  - destruct (check_listed clock strict_hash f sha s0) as [[s1 ok]| |] eqn:CL; cbn [vbind] in H; try discriminate.
    eapply check_listed_spec in CL. destruct CL as (S1 & IV & _). destruct ok.
    + eapply known_add; [| |exact H].
      * rewrite S1. apply known_invals with (s := s); [exact KR|exact IV].
      * rewrite S1. exact RN.
    + eapply (BAD true s1); eauto.
Qed.

Lemma known_explores : forall now T P s l s', MInv now T P s -> known_roas s -> explores explore_iter s l s' -> known_roas s'.
Proof.
  intros now T P s l s' M K H. revert T P M K. induction H as [s|s f q s1 l s2 Q E H IH]; intros T P M K; [exact K|].
  destruct (minv_step _ _ _ _ _ _ _ _ _ _ _ _ _ _ _ _ _ _ _ _ _ _ _ M Q E) as (T1 & _ & M1).
  exact (IH _ _ M1 (known_step _ _ _ _ _ _ _ M K Q E)).
Qed.

Lemma known_reach : forall now P s, explores explore_iter (init_mgr now init) P s -> known_roas s.
Proof.
  intros now P s H.
  destruct (minv_init sig_ok crl_sig_ok dec_tal dec_cert dec_roa dec_mft dec_crl hex_sha1 disk sha256 clock strict_manifests strict_hash add_invalid init now) as (T & M).
  eapply known_explores; [exact M| |exact H].
  unfold init_mgr. match goal with |- context [put_files ?l ?t] => destruct (put_files_spec l t) as (added & PE & _) end.
  rewrite PE. unfold known_roas. cbn. split; discriminate.
Qed.
End Explored.
