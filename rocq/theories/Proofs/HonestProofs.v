(** What a correctly run authority publishes becomes and stays valid. *)
From Coq Require Import String.
From Coq Require Import List ZArith Lia Bool.
From Verif.Model Require Import Base NetIP CertRes Roa Str Ber Tal Validator Explore NetText Output.
From Verif.Spec Require Import Addr Resources Canon OutputSpec Trust Discovery HonestSpec.
From Verif.Proofs Require Import RoaProofs ExportProofs StrProofs CertProofs HeapProofs Invalidate BerProofs ValidatorInv ValidatorRun ValidatorMono ValidatorAccept ValidatorFacts
  ValidatorMisc ValidatorPanic ExploreFacts ExploreInv ExploreThm RevokeProofs HonestBase.
Import ListNotations.

Section Honest.
Variable sig_ok : cert -> cert -> bool.
Variable crl_sig_ok : cert -> crl -> bool.
Variable dec_tal : bytes -> option tal.
Variable dec_cert : bytes -> option cert.
Variable dec_roa : bytes -> option roa.
Variable dec_mft : bytes -> option mft.
Variable dec_crl : bytes -> option crl.
Variable hex_sha1 : bytes -> bytes.
Variable disk : bytes -> option bytes.
Variable sha256 : bytes -> bytes.
Variable clock : nat -> Z * Z.
Variable strict_manifests : bool.
Variable strict_hash : bool.
Variable synced : bytes -> bool.
Variable add_invalid : bool.
Variable init : list fdesc.
Variable P : list pkifile.
Variable now : Z.
Notation run := (run sig_ok crl_sig_ok dec_tal dec_cert dec_roa dec_mft dec_crl hex_sha1).
Notation add_resource := (add_resource sig_ok crl_sig_ok dec_tal dec_cert dec_roa dec_mft dec_crl hex_sha1).
Notation add_cert := (add_cert sig_ok).
Notation add_roa := (add_roa sig_ok).
Notation add_mft := (add_mft sig_ok).
Notation add_crl := (add_crl crl_sig_ok).
Notation holds := (Discovery.holds disk).
Notation op_from := (op_from disk sha256 strict_hash).
Notation Inv := (Inv sig_ok).
Notation bears := (bears dec_cert dec_roa dec_mft disk).
Notation effective := (effective crl_sig_ok dec_cert dec_roa dec_mft disk P).
Notation clear := (clear crl_sig_ok dec_cert dec_roa dec_mft dec_crl disk sha256 clock strict_manifests strict_hash P now).
Notation honest := (honest sig_ok crl_sig_ok dec_tal dec_cert dec_roa dec_mft dec_crl hex_sha1 disk sha256 clock strict_manifests strict_hash P now).

Notation known_from := (known_from dec_cert dec_roa dec_mft disk).
Notation marked_from := (marked_from crl_sig_ok dec_cert dec_roa dec_mft dec_crl disk P).
Notation kept := (kept sig_ok crl_sig_ok dec_tal dec_cert dec_roa dec_mft dec_crl hex_sha1 disk sha256 clock strict_manifests strict_hash P now).
Notation explore_add := (explore_add sig_ok crl_sig_ok dec_tal dec_cert dec_roa dec_mft dec_crl hex_sha1 add_invalid).
Notation explore_iter := (explore_iter sig_ok crl_sig_ok dec_tal dec_cert dec_roa dec_mft dec_crl hex_sha1 disk synced sha256 clock strict_manifests strict_hash add_invalid).
Notation MInv := (MInv sig_ok crl_sig_ok dec_tal dec_cert dec_roa dec_mft dec_crl hex_sha1 disk sha256 clock strict_manifests strict_hash add_invalid init).
Notation minv_step := (minv_step sig_ok crl_sig_ok dec_tal dec_cert dec_roa dec_mft dec_crl hex_sha1 disk synced sha256 clock strict_manifests strict_hash add_invalid init).
Notation invals := (invals sig_ok crl_sig_ok dec_tal dec_cert dec_roa dec_mft dec_crl hex_sha1).
Notation hash_ok := (hash_ok sha256 strict_hash).
Notation usable := (usable disk sha256 strict_hash).

(** * Taking a file removes nothing honest *)
Lemma cl_listed' : forall f c, honest f c -> forall f' l n, In f' P -> f_type f' = TCrl -> contents disk dec_crl f' l -> effective l ->
  In n (crl_serials l) -> crl_aki (crl_exts l) [] ++ dec n <> c_aki c ++ dec (c_serial c).
Proof.
  intros f c H. destruct (honest_in _ _ _ _ _ _ _ _ _ _ _ _ _ _ _ _ _ H) as (_ & _ & C).
  exact (cl_listed _ _ _ _ _ _ _ _ _ _ _ _ _ _ C).
Qed.

Lemma kept_cert : forall c tr v v' res, Inv (fun _ => True) v -> add_cert c tr v = VRet (v', res) -> kept v v'.
Proof.
  intros c tr v v' [[[valid ps] a] err] I H f x HF. destruct (add_cert_cases _ _ _ _ _ _ _ _ _ H) as (-> & [C|C]).
  - destruct C as (_ & _ & _ & _ & ->). auto.
  - destruct C as (K & _ & ok & _ & _ & _ & ->).
    assert (PL : forall p, v_objects v (c_aki c) = Some p -> (p < length (v_heap v))%nat).
    { intros p HP. destruct (inv_obj _ _ _ I _ _ HP) as (y & Y & _). now apply hobj_lt in Y. }
    destruct (store_views sig_ok c valid v PL) as (_ & _ & _ & _ & _ & VV & _ & _ & _ & VR & _). rewrite VV, VR. split; auto.
    intros b B. destruct valid; auto. rewrite kset_neq; auto. intros E.
    rewrite E in B. apply (inv_valid _ _ _ I) in B. unfold kin in K. rewrite B in K. discriminate.
Qed.

(** AddCert as AddROA and AddManifest use it. *)
Lemma fresh_roa : forall c tr v v' valid ps a err, Inv (fun _ => True) v -> add_cert c tr v = VRet (v', (valid, ps, a, err)) ->
  valid = true -> v_objects v (c_ski c) = None.
Proof.
  intros c tr v v' valid ps a err I H ->. destruct (add_cert_cases _ _ _ _ _ _ _ _ _ H) as (-> & [C|C]).
  - destruct C as (_ & F & _). discriminate.
  - destruct C as (K & _). unfold kin in K. destruct (v_objects v (c_ski c)); [discriminate|reflexivity].
Qed.

Lemma validroa_cert : forall c tr v v' res, add_cert c tr v = VRet (v', res) -> v_validroa v' = v_validroa v.
Proof.
  intros c tr v v' [[[valid ps] a] err] H. destruct (add_cert_cases _ _ _ _ _ _ _ _ _ H) as (-> & [C|C]).
  - destruct C as (_ & _ & _ & _ & ->). reflexivity.
  - destruct C as (_ & _ & ok & _ & _ & _ & ->). unfold store_cert. destruct valid, (v_objects v (c_aki c)); reflexivity.
Qed.

Lemma kept_resource : forall Q f raw d v v' res, incl Q P -> Inv (fun _ => True) v -> known_from Q v -> In f P -> holds f raw d ->
  add_resource f d v = VRet (v', res) -> kept v v'.
Proof.
  intros Q f raw d v v' res S I K IF HD H. unfold Validator.add_resource in H.
  destruct (f_type f) eqn:FT; try (inversion H; subst; apply kept_refl; fail).
  - destruct (dec_cert d) as [c|] eqn:DC; [|inversion H; subst; apply kept_refl]. vb H. destruct y as [v1|]; [|inversion H; subst; apply kept_refl].
    vb H. destruct y as (v2 & ((va & ps) & a) & er). destruct (inv_check_tal sig_ok _ _ _ _ _ I E) as (I1 & _).
    eapply kept_trans; [|eapply kept_trans; [eapply kept_cert; [exact I1|exact E0]|]].
    + apply kept_same; [apply (check_tal_pre _ _ _ _ E)|].
      unfold check_tal in E. destruct (f_parent f) as [p|]; [|inversion E; subst; auto].
      destruct (is_tal (f_type p)); [|inversion E; subst; auto]. destruct (v_tals v (f_path f)) as [b|]; [|inversion E; subst; auto].
      vb E. destruct (r_obj y); try discriminate. vb E. destruct y0; inversion E; subst. reflexivity.
    + inversion H; subst. apply kept_same; reflexivity.
  - destruct (dec_mft d) as [m|] eqn:DC; [|inversion H; subst; apply kept_refl]. vb H. destruct y as (v1 & ((va & ps) & oa) & er).
    eapply kept_trans with v1; [|destruct oa; inversion H; subst; apply kept_same; reflexivity]. clear H.
    unfold Validator.add_mft in E. destruct (extract_path_mft (mft_files m)); [|inversion E; subst; apply kept_refl].
    vb E. destruct y as (v3 & ((va3 & ps3) & a3) & er3). eapply kept_trans; [eapply kept_cert; [exact I|exact E0]|].
    inversion E; subst. destruct (va3 && mft_inner m); apply kept_same; reflexivity.
  - destruct (dec_roa d) as [m|] eqn:DC; [|inversion H; subst; apply kept_refl]. vb H. destruct y as (v1 & (va & a) & er).
    eapply kept_trans with v1; [|inversion H; subst; apply kept_same; reflexivity]. clear H.
    unfold Validator.add_roa in E. vb E. destruct y as (v3 & ((va3 & ps3) & a3) & er3).
    intros g c HG. destruct (kept_cert _ _ _ _ _ I E0 g c HG) as (K1 & K2). inversion E; subst. clear E.
    destruct (va3 && validate_entries (roa_entries m) && roa_inner m) eqn:VAL; [|split; [exact K1|exact K2]].
    split; [exact K1|]. intros b B. cbn [put_roa put_validroa v_validroa]. rewrite kset_neq; [exact (K2 _ B)|].
    intros EQ. rewrite !andb_true_iff in VAL. destruct VAL as ((-> & _) & _).
    assert (F := fresh_roa _ _ _ _ _ _ _ _ I E0 eq_refl). destruct (inv_vroa _ _ _ I _ _ B) as (x & y & _ & _ & VY & _).
    apply (inv_valid _ _ _ I) in VY. congruence.
  - destruct (dec_crl d) as [l|] eqn:DC; [|inversion H; subst; apply kept_refl]. vb H. destruct y as (v1 & va & a). vb H. vb H.
    eapply kept_trans with v1; [|destruct (beq y y0); inversion H; subst; apply kept_same; reflexivity]. clear H E0 E1.
    apply add_crl_cases in E. destruct E as (-> & [[_ ->]|(_ & p & pc & v3 & OO & VV & HO & SG & R & ->)]); [apply kept_same; reflexivity|].
    eapply kept_trans; [|eapply kept_trans; [refine (kept_revoke sig_ok crl_sig_ok dec_tal dec_cert dec_roa dec_mft dec_crl hex_sha1 disk sha256 clock strict_manifests strict_hash P now Q _ (crl_serials l) _ _ _ S _ _ _ _ R)|]].
    + apply kept_same; reflexivity.
    + now apply list_inv.
    + intros k b O. cbn in O. destruct (K _ _ O) as (g & c & G1 & G2 & G3). exists g, c. split; auto. split; auto.
      cbn. rewrite hobj_alloc. assert (L := hobj_lt _ _ _ G3). destruct (Nat.eqb_spec b (length (v_heap v))); [lia|auto].
    + apply incl_refl.
    + intros g c n HG IN. apply (cl_listed' g c HG f l n); auto; [exists raw, d; auto|].
      exact (list_effective sig_ok crl_sig_ok dec_cert dec_roa dec_mft disk P Q v l p pc S I K OO HO SG).
    + apply kept_same; reflexivity.
  - destruct (dec_tal d) as [t|] eqn:DC; [|inversion H; subst; apply kept_refl]. cbn [add_tal] in H. inversion H; subst. apply kept_same; reflexivity.
Qed.

(** * An honest file is accepted *)
Lemma nil_of : forall A (l : list A), (forall x, ~ In x l) -> l = [].
Proof. intros A [|x l] H; auto. destruct (H x). now left. Qed.

Lemma validate_issued : forall c v pa pc, in_window c (v_time v) -> v_valid v (c_aki c) = Some pa -> hobj (v_heap v) pa = Some (OCert pc) ->
  sig_ok pc c = true -> kin (v_revoked v) (serial_key (c_aki c) (c_serial c)) = false -> within pc c ->
  validate_cert sig_ok c false v = VRet true.
Proof.
  intros c v pa pc W V O SG R (W1 & W2 & W3 & W4 & W5). unfold validate_cert, time_ok.
  destruct W as (N1 & N2). replace (v_time v <? c_not_before c) with false by (symmetry; apply Z.ltb_ge; lia).
  replace (c_not_after c <? v_time v) with false by (symmetry; apply Z.ltb_ge; lia). cbn [negb andb].
  rewrite V. destruct (deref_of_hobj _ _ _ O) as (r & D & RO). rewrite D. cbn [vbind]. rewrite RO, SG, R. cbn [negb].
  destruct (validate_ip_list_spec (c_ips c) (c_ips pc) W1 W2) as (x & iv & chk & E & _ & C & IV). rewrite E. cbn [vgo vbind].
  assert (iv = []) as ->.
  { apply nil_of. intros i IN. destruct (IV i IN) as (fam & lo & hi & DE & NC & _).
    assert (IL : In i (c_ips c)).
    { apply (Permutation.Permutation_in i (Permutation.Permutation_sym (validate_ip_list_perm _ _ _ _ _ E))). apply in_or_app. right. apply in_or_app. auto. }
    destruct (W4 i fam lo hi IL DE). contradiction. }
  assert (chk = []) as ->.
  { apply nil_of. intros i IN. destruct (C i IN) as (fam & lo & hi & DE & NC).
    assert (IL : In i (c_ips c)).
    { apply (Permutation.Permutation_in i (Permutation.Permutation_sym (validate_ip_list_perm _ _ _ _ _ E))). apply in_or_app. right. apply in_or_app. auto. }
    destruct (W4 i fam lo hi IL DE). contradiction. }
  assert (IC : forall fuel h va k p, ip_chain fuel h va k p [] [] = VRet (Some [])) by (intros [|fuel] h va k [q|]; reflexivity).
  rewrite IC. cbn [vbind].
  destruct (validate_as_list (c_asns c) (c_asns pc)) as ((av & aiv) & achk) eqn:EA.
  destruct (validate_as_list_spec (c_asns c) (c_asns pc) W3 _ _ _ EA) as (_ & AC & AIV).
  assert (PM := validate_as_list_perm _ _ _ _ _ EA).
  assert (aiv = []) as ->.
  { apply nil_of. intros i IN. destruct (AIV i IN) as (lo & hi & DE & NC & _).
    assert (IL : In i (c_asns c)).
    { apply (Permutation.Permutation_in i (Permutation.Permutation_sym PM)). apply in_or_app. right. apply in_or_app. auto. }
    destruct (W5 i lo hi IL DE). contradiction. }
  assert (achk = []) as ->.
  { apply nil_of. intros i IN. destruct (AC i IN) as (NC & lo & hi & DE).
    assert (IL : In i (c_asns c)).
    { apply (Permutation.Permutation_in i (Permutation.Permutation_sym PM)). apply in_or_app. right. apply in_or_app. auto. }
    destruct (W5 i lo hi IL DE). contradiction. }
  assert (AIC : forall fuel h va k p, as_chain fuel h va k p [] [] = VRet (Some [])) by (intros [|fuel] h va k [q|]; reflexivity).
  rewrite AIC. reflexivity.
Qed.

Lemma accept : forall c tr v v' valid ps a err, Inv (fun _ => True) v -> v_objects v (c_ski c) = None ->
  validate_cert sig_ok c tr v = VRet true -> (tr = true \/ v_valid v (c_aki c) <> None) ->
  add_cert c tr v = VRet (v', (valid, ps, a, err)) ->
  valid = true /\ v_valid v' (c_ski c) = Some a /\ hobj (v_heap v') a = Some (OCert c).
Proof.
  intros c tr v v' valid ps a err I N VC TP H. destruct (add_cert_cases _ _ _ _ _ _ _ _ _ H) as (-> & [C|C]).
  - destruct C as (K & _). unfold kin in K. rewrite N in K. discriminate.
  - destruct C as (K & _ & ok & VC2 & VD & _ & ->). assert (ok = true) by congruence. subst ok.
    assert (kin (v_valid v) (c_aki c) || tr = true) as EB.
    { destruct TP as [->|TP]; [apply orb_true_r|]. unfold kin. destruct (v_valid v (c_aki c)); [reflexivity|congruence]. }
    rewrite EB in VD. cbn [andb] in VD. subst valid.
    assert (PL : forall p, v_objects v (c_aki c) = Some p -> (p < length (v_heap v))%nat).
    { intros p HP. destruct (inv_obj _ _ _ I _ _ HP) as (y & Y & _). now apply hobj_lt in Y. }
    destruct (store_views sig_ok c true v PL) as (_ & VO & _ & _ & _ & VV & _). rewrite VV, VO, kset_eq, Nat.eqb_refl. auto.
Qed.

(** * One step of the exploration *)
Lemma inval_mft_kept : forall Q f s s', incl Q P -> Inv (fun _ => True) (m_v s) -> known_from Q (m_v s) ->
  (forall p g a, listed f p g -> m_rop s (f_id g) = Some a -> exists c, hobj (v_heap (m_v s)) a = Some (OCert c) /\ contents disk dec_cert g c /\ In g Q) ->
  (forall p g c, listed f p g -> honest g c -> False) ->
  inval_mft_parent f s = VRet s' -> kept (m_v s) (m_v s').
Proof.
  intros Q f s s' S I K RO NH H. unfold inval_mft_parent in H.
  assert (D : VRet s = VRet s' -> kept (m_v s) (m_v s')) by (intros X; inversion X; subst; apply kept_refl).
  destruct (f_parent f) as [p|] eqn:FP; auto. destruct (is_mft (f_type p)) eqn:PT; auto.
  destruct (f_parent p) as [g|] eqn:PP; auto. destruct (is_cer (f_type g)) eqn:GT; auto.
  assert (L : listed f p g).
  { unfold listed. destruct (f_type p); try discriminate PT. destruct (f_type g); try discriminate GT. auto. }
  destruct (m_rop s (f_id g)) as [a|] eqn:RA; auto. vb H. destruct (RO p g a L RA) as (c & HO & CG & GQ).
  destruct (deref_hobj _ _ _ E) as (HO' & _). assert (r_obj y = OCert c) as ED by congruence. rewrite ED in H. vb H.
  inversion H; subst. cbn [set_v m_v]. eapply (kept_invalidate _ _ _ _ _ _ _ _ _ _ _ _ _ P now Q); eauto.
  intros f' c' HF EK. destruct (honest_in _ _ _ _ _ _ _ _ _ _ _ _ _ _ _ _ _ HF) as (_ & FB & FC).
  assert (BG : bears g c) by (unfold HonestSpec.bears; destruct L as (_ & _ & _ & ->); exact CG).
  assert (g = f') by (apply (cl_key _ _ _ _ _ _ _ _ _ _ _ _ _ _ FC) with c; auto). subst f'.
  exact (NH p g c' L HF).
Qed.

Lemma explore_add_rop : forall f d s s', explore_add f d s = VRet s' -> exists valid subs oa err,
  add_resource f d (m_v s) = VRet (m_v s', (valid, subs, oa, err)) /\
  forall i, m_rop s' i = if (add_invalid || valid) && Nat.eqb i (f_id f) then oa else m_rop s i.
Proof.
  intros f d s s' H. unfold Explore.explore_add in H. vb H. destruct y as (v & ((valid & subs) & oa) & err).
  exists valid, subs, oa, err. destruct (add_invalid || valid); inversion H; subst s'; cbn [m_v m_rop andb]; auto.
  match goal with |- context [put_files ?l ?s0] => destruct (put_files_spec l s0) as (added & E1 & _) end.
  rewrite E1. auto.
Qed.

Lemma invals_heap : forall v v', invals v v' -> v_heap v' = v_heap v /\ v_objects v' = v_objects v /\ v_revoked v' = v_revoked v /\ v_time v' = v_time v.
Proof.
  intros v v' (ops & F & R). revert v F R. induction ops as [|o ops IH]; intros v F R.
  - inversion R; subst. auto.
  - cbn [Validator.run] in R. vb R. inversion F; subst. destruct (IH _ H2 R) as (A1 & A2 & A3 & A4). rewrite A1, A2, A3, A4.
    destruct o; try contradiction. cbn [Validator.step] in E. apply invalidate_spec in E. destruct E as (D & -> & _).
    rewrite drop_keys_heap, drop_keys_objects, drop_keys_revoked, drop_keys_time. auto.
Qed.

Lemma iter_kept : forall T Q s f q s' rest, MInv now T Q s -> m_queue s = f :: q -> explore_iter s = VRet s' -> P = Q ++ f :: rest ->
  exists v1, invals (m_v s) v1 /\ kept (m_v s) v1 /\
    ((m_v s' = v1 /\ ~ usable f /\ m_rop s' = m_rop s) \/
     exists raw d valid subs oa err, holds f raw d /\ hash_ok f raw /\ add_resource f d v1 = VRet (m_v s', (valid, subs, oa, err)) /\
       forall i, m_rop s' i = if (add_invalid || valid) && Nat.eqb i (f_id f) then oa else m_rop s i).
Proof.
  intros T Q s f q s' rest M Qu H EP.
  assert (I := minv_inv _ _ _ _ _ _ _ _ _ _ _ _ _ _ _ _ _ _ _ M).
  assert (QP : incl Q P) by (rewrite EP; intros x X; apply in_or_app; auto).
  assert (NTH : nth_error P (length Q) = Some f) by (rewrite EP, nth_error_app2, Nat.sub_diag; auto).
  destruct (mi_run _ _ _ _ _ _ _ _ _ _ _ _ _ _ _ _ _ _ _ M) as (opsA & FA & RA).
  destruct (from_start _ _ _ _ _ _ _ _ _ _ clock _ _ _ _ _ _ QP FA RA) as (KF & _).
  assert (FT : In f T) by (apply (mi_in _ _ _ _ _ _ _ _ _ _ _ _ _ _ _ _ _ _ _ M); rewrite Qu; apply in_or_app; right; left; auto).
  unfold Explore.explore_iter in H. rewrite Qu in H.
  set (s0 := mkM (m_v s) q (m_explored s) (m_unique s) (m_rop s) (m_next s) (S (m_tick s))) in *.
  assert (NP : ~ In (compute_path f) (map compute_path Q)).
  { assert (ND := mi_nodup _ _ _ _ _ _ _ _ _ _ _ _ _ _ _ _ _ _ _ M). rewrite Qu, map_app in ND. cbn [map] in ND.
    apply NoDup_remove_2 in ND. intros K. apply ND. apply in_or_app. auto. }
  (* what the certificate above a listed file is *)
  assert (RG : forall p g a, listed f p g -> m_rop s (f_id g) = Some a -> exists c, hobj (v_heap (m_v s)) a = Some (OCert c) /\ contents disk dec_cert g c /\ In g Q).
  { intros p g a (L1 & L2 & L3 & L4) R.
    destruct (mi_par _ _ _ _ _ _ _ _ _ _ _ _ _ _ _ _ _ _ _ M _ _ FT L1) as (PP & _).
    assert (PT : In p T) by (apply (mi_in _ _ _ _ _ _ _ _ _ _ _ _ _ _ _ _ _ _ _ M), in_or_app; auto).
    destruct (mi_par _ _ _ _ _ _ _ _ _ _ _ _ _ _ _ _ _ _ _ M _ _ PT L3) as (GP & _).
    assert (GT : In g T) by (apply (mi_in _ _ _ _ _ _ _ _ _ _ _ _ _ _ _ _ _ _ _ M), in_or_app; auto).
    destruct (lookup_reg _ _ _ _ _ _ _ _ _ _ _ _ _ _ _ _ _ _ _ _ _ M GT R) as (raw1 & d1 & H1 & _ & _ & G1).
    unfold reg_ok in G1. rewrite L4 in G1. destruct G1 as (c & C1 & C2 & _). exists c. split; auto. split; auto. exists raw1, d1. auto. }
  assert (RM : forall p g a m, listed f p g -> m_rop s (f_id p) = Some a -> hobj (v_heap (m_v s)) a = Some (OMft m) -> contents disk dec_mft p m).
  { intros p g a m (L1 & L2 & _) R O.
    destruct (mi_par _ _ _ _ _ _ _ _ _ _ _ _ _ _ _ _ _ _ _ M _ _ FT L1) as (PP & _).
    assert (PT : In p T) by (apply (mi_in _ _ _ _ _ _ _ _ _ _ _ _ _ _ _ _ _ _ _ M), in_or_app; auto).
    destruct (lookup_reg _ _ _ _ _ _ _ _ _ _ _ _ _ _ _ _ _ _ _ _ _ M PT R) as (raw1 & d1 & H1 & _ & _ & G1).
    unfold reg_ok in G1. rewrite L2 in G1. destruct G1 as (c & C1 & C2 & _). assert (c = m) by congruence. subst c. exists raw1, d1. auto. }
  assert (NOCRL : forall x x', inval_crl_parent f x = VRet x' -> x' = x).
  { intros x x' X. unfold inval_crl_parent in X. destruct (f_parent f) as [p|] eqn:FP; [|congruence].
    destruct (mi_child _ _ _ _ _ _ _ _ _ _ _ _ _ _ _ _ _ _ _ M _ _ FT FP) as (r0 & d0 & _ & _ & CH).
    destruct (f_type p); try contradiction; cbn [is_crl] in X; congruence. }
  assert (ENT : forall p g c, listed f p g -> honest g c ->
    (strict_manifests = true -> good_copy disk sha256 f) /\ (strict_hash = true -> forall m, contents disk dec_mft p m -> mft_current (clock (S (length Q))) m)).
  { intros p g c L HG. destruct (honest_in _ _ _ _ _ _ _ _ _ _ _ _ _ _ _ _ _ HG) as (_ & _ & C).
    exact (cl_entries _ _ _ _ _ _ _ _ _ _ _ _ _ _ C _ _ _ NTH L). }
  assert (BAD : forall err s1, invals (m_v s) (m_v s1) -> kept (m_v s) (m_v s1) -> v_heap (m_v s1) = v_heap (m_v s) -> m_rop s1 = m_rop s ->
    known_from Q (m_v s1) -> ~ usable f ->
    explore_bad strict_manifests err f s1 = VRet s' -> invals (m_v s) (m_v s') /\ kept (m_v s) (m_v s') /\ m_rop s' = m_rop s).
  { intros err s1 IV KP EH ER KF1 NU EB. destruct (ext_invals _ _ _ _ _ _ _ _ _ _ I IV) as (_ & I1).
    assert (EB0 := EB). eapply explore_bad_spec in EB; [|exact I1]. destruct EB as (ES & EB & _).
    split; [eapply invals_trans; eauto|]. split; [|rewrite ES; exact ER]. eapply kept_trans; [exact KP|].
    unfold explore_bad in EB0. vb EB0. assert (EY : m_v s' = m_v y).
    { destruct err; [apply NOCRL in EB0; now subst|inversion EB0; subst; auto]. }
    rewrite EY. destruct (bool_dec strict_manifests true) as [SM|SM]; [rewrite SM in E|apply not_true_is_false in SM; rewrite SM in E; inversion E; subst; apply kept_refl].
    apply (inval_mft_kept Q f s1 y); auto.
    - intros p g a L R. rewrite EH. rewrite ER in R. exact (RG p g a L R).
    - intros p g c L HG. destruct (ENT p g c L HG) as (GC & _). destruct (GC SM) as (raw & d & HD & HH).
      apply NU. exists raw, d. split; auto. intros _. exact HH. }
  unfold Explore.explore_file in H. vb H. unfold get_next_file in E.
  assert (NE : kin (m_explored s0) (compute_path f) = false).
  { destruct (kin (m_explored s0) (compute_path f)) eqn:K; auto. apply (mi_expl _ _ _ _ _ _ _ _ _ _ _ _ _ _ _ _ _ _ _ M) in K. contradiction. }
  rewrite NE in E. apply get_file_spec in E.
  destruct y as [| |d sha].
  - assert (NU : ~ usable f) by (intros (raw & d & K & _); apply E; eauto).
    destruct (BAD true s0) as (A1 & A2 & A3); auto; [apply invals_refl|apply kept_refl|].
    exists (m_v s'). split; auto.
  - assert (NU : ~ usable f) by (intros (raw & d & K & _); apply E; eauto).
    destruct (BAD false s0) as (A1 & A2 & A3); auto; [apply invals_refl|apply kept_refl|].
    exists (m_v s'). split; auto.
  - destruct E as (raw & HD & ->). vb H. destruct y as (s1 & ok). assert (CL := E).
    eapply check_listed_spec in E. destruct E as (ES & IV & OK & _).
    assert (KP : kept (m_v s) (m_v s1)).
    { unfold check_listed in CL. destruct (fd_hash (f_desc f)) as [h|]; [|inversion CL; subst; apply kept_refl].
      destruct (bool_dec strict_hash true) as [SH|SH]; [rewrite SH in CL|apply not_true_is_false in SH; rewrite SH in CL; inversion CL; subst; apply kept_refl]. vb CL. vb CL. inversion CL; subst y0 ok. clear CL.
      destruct y; [|inversion E0; subst; apply kept_refl].
      apply (inval_mft_kept Q f s0 s1); auto. intros p g c L HG. destruct (ENT p g c L HG) as (_ & CU).
      assert (L0 := L). destruct L0 as (L1 & L2 & _). unfold listed_stale in E. rewrite L1, L2 in E. cbn [is_mft] in E.
      destruct (m_rop s0 (f_id p)) as [a|] eqn:RP; [|discriminate E]. vb E. destruct (deref_hobj _ _ _ E1) as (HO & _).
      destruct (r_obj y) as [|m| | |] eqn:RO; try discriminate E.
      assert (CM := RM p g a m L RP HO). destruct (CU SH m CM) as (C1 & C2).
      cbn [m_tick s0] in E. rewrite (mi_tick _ _ _ _ _ _ _ _ _ _ _ _ _ _ _ _ _ _ _ M) in E. unfold mft_stale in E. inversion E as [E2].
      apply orb_true_iff in E2. destruct E2 as [E2|E2]; apply Z.ltb_lt in E2; lia. }
    assert (EH : v_heap (m_v s1) = v_heap (m_v s) /\ v_objects (m_v s1) = v_objects (m_v s)).
    { destruct (invals_heap _ _ IV) as (A1 & A2 & _). auto. }
    assert (ER : m_rop s1 = m_rop s) by (rewrite ES; reflexivity).
    destruct ok.
    + destruct (explore_add_rop _ _ _ _ H) as (valid & subs & oa & err & AR & RR). exists (m_v s1). split; [exact IV|]. split; auto. right.
      exists raw, d, valid, subs, oa, err. split; auto. split.
      { intros SH h Hh. rewrite Hh, SH in OK. symmetry in OK. now apply beq_eq in OK. }
      split; auto. intros i. rewrite RR, ER. reflexivity.
    + assert (NU : ~ usable f).
      { intros (raw' & d' & K & HK). destruct (holds_fun _ _ _ _ _ _ HD K) as (<- & <-).
        destruct (fd_hash (f_desc f)) as [h|] eqn:FH; [|discriminate OK].
        destruct (bool_dec strict_hash true) as [SH|SH]; [rewrite SH in OK|apply not_true_is_false in SH; rewrite SH in OK; discriminate OK].
        rewrite (HK SH h FH), beq_refl in OK. discriminate OK. }
      destruct EH as (EH & EO).
      destruct (BAD true s1) as (A1 & A2 & A3); auto.
      { intros k b O. rewrite EO in O. rewrite EH. exact (KF _ _ O). }
      exists (m_v s'). split; auto.
Qed.

Lemma honest_validate : forall Q v f c, incl Q P -> Inv (fun _ => True) v -> known_from Q v -> marked_from v -> v_time v = now ->
  honest f c -> (forall g pc, under f g -> honest g pc -> v_valid v (c_ski pc) <> None) ->
  forall tr, (tr = true \/ exists g, under f g) -> (tr = false -> exists g, under f g) ->
  (forall p, f_parent f = Some p -> f_type p = TTal -> tr = true) ->
  validate_cert sig_ok c tr v = VRet true /\ (tr = true \/ v_valid v (c_aki c) <> None).
Proof.
  intros Q v f c S I K MK TM HF UP tr TU TF TT. destruct (honest_in _ _ _ _ _ _ _ _ _ _ _ _ _ _ _ _ _ HF) as (_ & FB & FC).
  assert (W := cl_window _ _ _ _ _ _ _ _ _ _ _ _ _ _ FC).
  destruct tr.
  - split; auto. unfold validate_cert, time_ok. rewrite TM. destruct W as (N1 & N2).
    replace (now <? c_not_before c)%Z with false by (symmetry; apply Z.ltb_ge; lia).
    replace (c_not_after c <? now)%Z with false by (symmetry; apply Z.ltb_ge; lia). reflexivity.
  - assert (LST := cl_listed' f c HF). destruct HF as [f p c n e A1 A2 A3 A4 A5 A6 A7 A8 A9 A10|f c g pc B1 B2 B3 B4 B5 B6 B7 B8].
    + discriminate (TT p A4 A5).
    + destruct (v_valid v (c_ski pc)) as [pa|] eqn:V; [|destruct (UP g pc B3 B4 V)].
      rewrite B5. split; [|right; congruence]. destruct (inv_obj _ _ _ I _ _ (inv_valid _ _ _ I _ _ V)) as (pc' & HO & EK).
      destruct (honest_known _ _ _ _ _ _ _ _ _ _ _ _ _ _ _ _ _ _ _ _ _ S K B4 (inv_valid _ _ _ I _ _ V) HO EK) as (-> & _).
      apply (validate_issued c v pa pc); auto; [now rewrite TM|now rewrite B5|].
      destruct (kin (v_revoked v) (serial_key (c_aki c) (c_serial c))) eqn:RV; auto.
      destruct (MK _ RV) as (f' & l & m & M1 & M2 & M3 & M4 & M5 & M6). exfalso. apply (LST f' l m); auto.
Qed.

Lemma taken_honest : forall Q v f c raw d v' valid subs oa err, incl Q P -> Inv (fun _ => True) v -> known_from Q v -> marked_from v -> v_time v = now ->
  honest f c -> ~ In f Q -> holds f raw d -> (forall g pc, under f g -> honest g pc -> v_valid v (c_ski pc) <> None) ->
  (forall p, f_parent f = Some p -> f_type p = TTal -> fd_trust (f_desc f) = true) ->
  (forall g, under f g -> fd_trust (f_desc f) = false) ->
  (forall k a, v_tals v k = Some a -> exists q t, In q P /\ f_type q = TTal /\ contents disk dec_tal q t /\ hobj (v_heap v) a = Some (OTal t) /\ get_rsync_uri hex_sha1 t = k) ->
  add_resource f d v = VRet (v', (valid, subs, oa, err)) ->
  v_valid v' (c_ski c) <> None /\
  (f_type f = TCer -> valid = true /\ oa <> None) /\
  (forall m, f_type f = TMft -> contents disk dec_mft f m -> mft_inner m = true -> valid = true /\ oa <> None) /\
  (forall r, f_type f = TRoa -> contents disk dec_roa f r -> validate_entries (roa_entries r) = true -> roa_inner r = true ->
     exists b, v_validroa v' (c_ski c) = Some b /\ hobj (v_heap v') b = Some (ORoa r)).
Proof.
  intros Q v f c raw d v' valid subs oa err S I K MK TM HF NF HD UP T1 T2 TL H.
  destruct (honest_in _ _ _ _ _ _ _ _ _ _ _ _ _ _ _ _ _ HF) as (FP & FB & FC).
  assert (FRESH : v_objects v (c_ski c) = None).
  { destruct (v_objects v (c_ski c)) as [a|] eqn:O; auto. exfalso. destruct (inv_obj _ _ _ I _ _ O) as (c' & HO & EK).
    destruct (honest_known _ _ _ _ _ _ _ _ _ _ _ _ _ _ _ _ _ _ _ _ _ S K HF O HO EK) as (_ & X). contradiction. }
  assert (CASES : (f_type f = TCer /\ exists p, f_parent f = Some p /\ f_type p = TTal) \/ exists g, under f g).
  { destruct HF as [f p c n e A1 A2 A3 A4 A5 A6 A7 A8 A9 A10|f c g pc B1 B2 B3 B4 B5 B6 B7 B8]; eauto 10. }
  assert (UT : forall g p, under f g -> f_parent f = Some p -> f_type p = TTal -> False).
  { intros g p U FPA FPT. assert (X := T1 p FPA FPT). rewrite (T2 g U) in X. discriminate X. }
  unfold Validator.add_resource in H. unfold HonestSpec.bears in FB. destruct (f_type f) eqn:FT; try contradiction.
  - (* a certificate *)
    destruct FB as (raw' & d' & HD' & DC). destruct (holds_fun _ _ _ _ _ _ HD HD') as (<- & <-). rewrite DC in H. vb H.
    assert (EY : exists v1, y = Some v1).
    { destruct CASES as [(_ & p & P1 & P2)|(g & U)].
      - unfold check_tal in E. rewrite P1, P2 in E. cbn [is_tal] in E. destruct (v_tals v (f_path f)) as [a|] eqn:TA; [|inversion E; subst; eauto].
        destruct (TL _ _ TA) as (q & t & Q1 & Q2 & Q3 & Q4 & Q5). destruct (deref_of_hobj _ _ _ Q4) as (r & D & RO). rewrite D in E. cbn [vbind] in E. rewrite RO in E.
        destruct HF as [f p' c n e A1 A2 A3 A4 A5 A6 A7 A8 A9 A10|f c g pc B1 B2 B3 B4 B5 B6 B7 B8]; [|destruct (UT g p B3 P1 P2)].
        destruct (A6 q t Q1 Q2 Q3 Q5) as (TA1 & TA2). unfold check_certificate in E. rewrite TA1, A7, Z.eqb_refl, TA2, A8 in E.
        cbn [as_rsa_ptr gbind vgo vbind] in E. rewrite !Z.eqb_refl in E. cbn [andb vgo vbind] in E. inversion E. eauto.
      - unfold check_tal in E. destruct (f_parent f) as [p|] eqn:FPA; [|inversion E; eauto].
        destruct (f_type p) eqn:FPT; cbn [is_tal] in E; try (inversion E; eauto; fail). destruct (UT g p U eq_refl FPT). }
    destruct EY as (v1 & ->). vb H. destruct y as (v2 & ((va & ps) & a) & er).
    destruct (check_tal_pre _ _ _ _ E) as ((_ & HS) & PV & PO & PR & PT & _). destruct (inv_check_tal sig_ok _ _ _ _ _ I E) as (I1 & _).
    assert (K1 : known_from Q v1).
    { intros k b O. rewrite PO in O. destruct (K _ _ O) as (g & x & G1 & G2 & G3). exists g, x. split; auto. split; auto. destruct (HS b) as (-> & _). exact G3. }
    assert (M1 : marked_from v1) by (intros k R; rewrite PR in R; exact (MK k R)).
    assert (TM1 : v_time v1 = now) by congruence.
    assert (UP1 : forall g pc, under f g -> honest g pc -> v_valid v1 (c_ski pc) <> None) by (intros g pc U HG; rewrite PV; exact (UP g pc U HG)).
    destruct (honest_validate Q v1 f c S I1 K1 M1 TM1 HF UP1 (fd_trust (f_desc f))) as (VA & VB).
    { destruct CASES as [(_ & p & P1 & P2)|X]; auto. left. exact (T1 p P1 P2). }
    { intros TF. destruct CASES as [(_ & p & P1 & P2)|X]; auto. rewrite (T1 p P1 P2) in TF. discriminate TF. }
    { exact T1. }
    destruct (accept c (fd_trust (f_desc f)) v1 v2 va ps a er I1) as (-> & V2 & _); auto; [now rewrite PO|].
    inversion H; subst. cbn [put_path upd set_heap v_valid]. split; [rewrite V2; discriminate|]. split; [|split; intros; discriminate].
    intros _. split; auto. discriminate.
  - (* a manifest *)
    destruct FB as (m & (raw' & d' & HD' & DC) & <- & PN). destruct (holds_fun _ _ _ _ _ _ HD HD') as (<- & <-). rewrite DC in H. vb H.
    destruct y as (v1 & ((va & ps) & oa1) & er). unfold Validator.add_mft in E. apply plain_extract in PN.
    destruct (extract_path_mft (mft_files m)) as [paths|]; [|destruct (PN eq_refl)]. vb E. destruct y as (v3 & ((va3 & ps3) & a3) & er3).
    destruct CASES as [(X & _)|(g & U)]; [discriminate X|].
    destruct (honest_validate Q v f (mft_cert m) S I K MK TM HF UP false (or_intror (ex_intro _ g U)) (fun _ => ex_intro _ g U)
      (fun p FPA FPT => match UT g p U FPA FPT with end)) as (VA & VB).
    destruct (accept (mft_cert m) false v v3 va3 ps3 a3 er3 I FRESH VA VB E0) as (-> & V3 & _).
    inversion E; subst. clear E. inversion H; subst. clear H. cbn [andb]. split.
    + destruct (mft_inner m); cbn; rewrite V3; discriminate.
    + split; [intros; discriminate|]. split; [|intros; discriminate]. intros m' _ (r2 & d2 & H2 & D2) IN.
      destruct (holds_fun _ _ _ _ _ _ HD H2) as (<- & <-). assert (m' = m) by congruence. subst m'. split; [exact IN|discriminate].
  - (* a ROA *)
    destruct FB as (r & (raw' & d' & HD' & DC) & <-). destruct (holds_fun _ _ _ _ _ _ HD HD') as (<- & <-). rewrite DC in H. vb H.
    destruct y as (v1 & (va & b) & er). unfold Validator.add_roa in E. vb E. destruct y as (v3 & ((va3 & ps3) & a3) & er3).
    destruct CASES as [(X & _)|(g & U)]; [discriminate X|].
    destruct (honest_validate Q v f (roa_cert r) S I K MK TM HF UP false (or_intror (ex_intro _ g U)) (fun _ => ex_intro _ g U)
      (fun p FPA FPT => match UT g p U FPA FPT with end)) as (VA & VB).
    destruct (accept (roa_cert r) false v v3 va3 ps3 a3 er3 I FRESH VA VB E0) as (-> & V3 & _).
    inversion E; subst. clear E. inversion H; subst. clear H. cbn [andb]. split.
    + destruct (validate_entries (roa_entries r) && roa_inner r); cbn; rewrite V3; discriminate.
    + split; [intros; discriminate|]. split; [intros; discriminate|]. intros r' _ (r2 & d2 & H2 & D2) VE IN.
      destruct (holds_fun _ _ _ _ _ _ HD H2) as (<- & <-). assert (r' = r) by congruence. subst r'. rewrite VE, IN. cbn [andb].
      eexists. cbn [put_path put_roa put_validroa upd alloc set_heap v_validroa v_heap]. rewrite kset_eq. split; [reflexivity|].
      rewrite hobj_upd_meta by apply meta_file. rewrite hobj_child, hobj_alloc, Nat.eqb_refl. reflexivity.
Qed.

(** * The whole exploration *)
Definition Good (Q : list pkifile) (s : mgr) : Prop := forall f c, honest f c -> In f Q ->
  v_valid (m_v s) (c_ski c) <> None /\
  (f_type f = TCer -> m_rop s (f_id f) <> None) /\
  (forall m, f_type f = TMft -> contents disk dec_mft f m -> mft_inner m = true -> m_rop s (f_id f) <> None) /\
  (forall r, f_type f = TRoa -> contents disk dec_roa f r -> validate_entries (roa_entries r) = true -> roa_inner r = true ->
     exists b, v_validroa (m_v s) (c_ski c) = Some b /\ hobj (v_heap (m_v s)) b = Some (ORoa r)).

Lemma good_step : forall T Q s f q s' rest, MInv now T Q s -> m_queue s = f :: q -> explore_iter s = VRet s' -> P = Q ++ f :: rest ->
  Good Q s -> Good (Q ++ [f]) s'.
Proof.
  intros T Q s f q s' rest M Qu H EP G.
  destruct (iter_kept _ _ _ _ _ _ _ M Qu H EP) as (v1 & IV & KP & C).
  assert (I := minv_inv _ _ _ _ _ _ _ _ _ _ _ _ _ _ _ _ _ _ _ M).
  assert (QP : incl Q P) by (rewrite EP; intros x X; apply in_or_app; auto).
  assert (FP : In f P) by (rewrite EP; apply in_or_app; right; left; auto).
  destruct (mi_run _ _ _ _ _ _ _ _ _ _ _ _ _ _ _ _ _ _ _ M) as (opsA & FA & RA).
  destruct (from_start _ _ _ _ _ _ _ _ _ _ clock _ _ _ _ _ _ QP FA RA) as (KF & MF).
  assert (FT : In f T) by (apply (mi_in _ _ _ _ _ _ _ _ _ _ _ _ _ _ _ _ _ _ _ M); rewrite Qu; apply in_or_app; right; left; auto).
  assert (NFQ : ~ In f Q).
  { assert (ND := mi_nodup _ _ _ _ _ _ _ _ _ _ _ _ _ _ _ _ _ _ _ M). rewrite Qu, map_app in ND. cbn [map] in ND.
    apply NoDup_remove_2 in ND. intros K. apply ND. apply in_or_app. left. now apply in_map. }
  destruct (ext_invals _ _ _ _ _ _ _ _ _ _ I IV) as (X1 & I1).
  destruct (invals_heap _ _ IV) as (HH & HO & HR & HT).
  assert (KF1 : known_from Q v1) by (intros k b O; rewrite HO in O; rewrite HH; exact (KF _ _ O)).
  assert (MF1 : marked_from v1) by (intros k R; rewrite HR in R; exact (MF _ R)).
  assert (TM1 : v_time v1 = now).
  { rewrite HT. destruct (inv_run _ _ _ _ _ _ _ _ _ _ _ RA) as (_ & TM). exact TM. }
  assert (OLD : forall h c, honest h c -> In h Q -> kept v1 (m_v s') -> (forall a o, hobj (v_heap v1) a = Some o -> hobj (v_heap (m_v s')) a = Some o) ->
    (forall i, i <> f_id f -> m_rop s' i = m_rop s i) ->
    v_valid (m_v s') (c_ski c) <> None /\
    (f_type h = TCer -> m_rop s' (f_id h) <> None) /\
    (forall m, f_type h = TMft -> contents disk dec_mft h m -> mft_inner m = true -> m_rop s' (f_id h) <> None) /\
    (forall r, f_type h = TRoa -> contents disk dec_roa h r -> validate_entries (roa_entries r) = true -> roa_inner r = true ->
       exists b, v_validroa (m_v s') (c_ski c) = Some b /\ hobj (v_heap (m_v s')) b = Some (ORoa r))).
  { intros h c HC HQ K2 HOB RR. destruct (G h c HC HQ) as (G1 & G2 & G3 & G4). destruct (KP h c HC) as (A1 & A2). destruct (K2 h c HC) as (B1 & B2).
    assert (NI : f_id h <> f_id f).
    { intros EI. assert (HT0 : In h T) by (apply (mi_in _ _ _ _ _ _ _ _ _ _ _ _ _ _ _ _ _ _ _ M), in_or_app; auto).
      assert (N1 := minv_nth _ _ _ _ _ _ _ _ _ _ _ _ _ _ _ _ _ _ _ _ M HT0). assert (N2 := minv_nth _ _ _ _ _ _ _ _ _ _ _ _ _ _ _ _ _ _ _ _ M FT).
      rewrite EI in N1. assert (h = f) by congruence. subst h. contradiction. }
    rewrite (RR _ NI). split.
    - destruct (v_valid (m_v s) (c_ski c)) as [a|]; [|destruct (G1 eq_refl)]. rewrite (B1 a (A1 a eq_refl)). discriminate.
    - split; [exact G2|]. split; [exact G3|]. intros r R1 R2 R3 R4. destruct (G4 r R1 R2 R3 R4) as (b & V & O). exists b.
      split; [exact (B2 b (A2 b V))|]. apply HOB. rewrite HH. exact O. }
  intros h c HC HQ. apply in_app_iff in HQ. destruct C as [(EV & NU & ER)|(raw & d & valid & subs & oa & err & HD & HK & AR & RR)].
  - destruct HQ as [HQ|[<-|[]]].
    + apply OLD; auto; [rewrite EV; apply kept_refl|rewrite EV; auto|intros; now rewrite ER].
    + exfalso. destruct (honest_in _ _ _ _ _ _ _ _ _ _ _ _ _ _ _ _ _ HC) as (_ & _ & FC).
      destruct (cl_copy _ _ _ _ _ _ _ _ _ _ _ _ _ _ FC) as (raw & d & HD & HHS). apply NU. exists raw, d. split; auto. intros _. exact HHS.
  - assert (R1 : run [DoResource f d] v1 = VRet (m_v s')).
    { cbn [Validator.run Validator.step]. unfold vfst. rewrite AR. reflexivity. }
    destruct (ext_any _ _ _ _ _ _ _ _ _ _ _ I1 R1) as (X2 & _).
    destruct HQ as [HQ|[<-|[]]].
    + apply OLD; auto.
      * exact (kept_resource Q f raw d v1 (m_v s') _ QP I1 KF1 FP HD AR).
      * exact (ext_obj _ _ X2).
      * intros i NI. rewrite RR. destruct (Nat.eqb_spec i (f_id f)) as [->|_]; [contradiction|]. rewrite andb_false_r. reflexivity.
    + destruct (taken_honest Q v1 f c raw d (m_v s') valid subs oa err QP I1 KF1 MF1 TM1 HC NFQ HD) as (A1 & A2 & A3 & A4); auto.
      * intros g pc U HG. assert (GQ : In g Q).
        { destruct U as [(U1 & U2)|(p & L1 & L2 & L3 & L4)].
          - destruct (mi_par _ _ _ _ _ _ _ _ _ _ _ _ _ _ _ _ _ _ _ M _ _ FT U1) as (X & _). exact X.
          - destruct (mi_par _ _ _ _ _ _ _ _ _ _ _ _ _ _ _ _ _ _ _ M _ _ FT L1) as (PP & _).
            assert (PT : In p T) by (apply (mi_in _ _ _ _ _ _ _ _ _ _ _ _ _ _ _ _ _ _ _ M), in_or_app; auto).
            destruct (mi_par _ _ _ _ _ _ _ _ _ _ _ _ _ _ _ _ _ _ _ M _ _ PT L3) as (X & _). exact X. }
        destruct (G g pc HG GQ) as (G1 & _). destruct (KP g pc HG) as (K1 & _).
        destruct (v_valid (m_v s) (c_ski pc)) as [a|]; [|destruct (G1 eq_refl)]. rewrite (K1 a eq_refl). discriminate.
      * intros p F1 F2. destruct (mi_child _ _ _ _ _ _ _ _ _ _ _ _ _ _ _ _ _ _ _ M _ _ FT F1) as (r0 & d0 & _ & _ & CH).
        rewrite F2 in CH. destruct CH as (t & _ & ->). reflexivity.
      * intros g U. destruct (fd_trust (f_desc f)) eqn:TR; auto. exfalso.
        assert (UU : exists p, f_parent f = Some p /\ f_type p <> TTal).
        { destruct U as [(U1 & U2)|(p & L1 & L2 & _)]; [exists g|exists p]; split; auto; congruence. }
        destruct UU as (p & U1 & U2). destruct (mi_trust _ _ _ _ _ _ _ _ _ _ _ _ _ _ _ _ _ _ _ M _ FT TR) as [N|(p' & N1 & N2 & _)]; congruence.
      * intros k a TA. rewrite (invals_same _ _ _ _ _ _ _ _ _ _ IV) in TA.
        destruct (mi_tals _ _ _ _ _ _ _ _ _ _ _ _ _ _ _ _ _ _ _ M _ _ TA) as (p & t & P1 & P2 & P3 & P4 & P5). exists p, t. rewrite HH. auto 10.
      * split; [exact A1|]. split; [|split; [|exact A4]].
        -- intros FC. destruct (A2 FC) as (-> & NN). rewrite RR, Nat.eqb_refl, orb_true_r. exact NN.
        -- intros m M1 M2 M3. destruct (A3 m M1 M2 M3) as (-> & NN). rewrite RR, Nat.eqb_refl, orb_true_r. exact NN.
Qed.

Lemma good_explores : forall l s s' T Q, explores explore_iter s l s' -> MInv now T Q s -> P = Q ++ l -> Good Q s -> Good P s'.
Proof.
  intros l s s' T Q H. revert T Q. induction H as [s|s f q s1 l s2 Qu E H IH]; intros T Q M EP G.
  - rewrite app_nil_r in EP. rewrite EP. exact G.
  - destruct (minv_step _ _ _ _ _ _ _ M Qu E) as (T1 & _ & M1).
    apply (IH T1 (Q ++ [f])); auto; [now rewrite <- app_assoc|]. eapply good_step; eauto.
Qed.

Theorem honest_all : forall s, explores explore_iter (init_mgr now init) P s -> Good P s /\ known_from P (m_v s) /\ Inv (fun _ => True) (m_v s) /\ exists T, MInv now T P s.
Proof.
  intros s H. destruct (minv_init sig_ok crl_sig_ok dec_tal dec_cert dec_roa dec_mft dec_crl hex_sha1 disk sha256 clock strict_manifests strict_hash add_invalid init now) as (T0 & M0).
  split; [eapply good_explores; [exact H|exact M0|reflexivity|]|].
  - intros f c _ [].
  - destruct (minv_reach sig_ok crl_sig_ok dec_tal dec_cert dec_roa dec_mft dec_crl hex_sha1 disk synced sha256 clock strict_manifests strict_hash add_invalid init now P s H) as (T & M).
    destruct (mi_run _ _ _ _ _ _ _ _ _ _ _ _ _ _ _ _ _ _ _ M) as (opsA & FA & RA).
    destruct (from_start _ _ _ _ _ _ _ _ _ _ clock _ _ _ _ _ _ (incl_refl P) FA RA) as (KF & _).
    split; auto. split; [exact (minv_inv _ _ _ _ _ _ _ _ _ _ _ _ _ _ _ _ _ _ _ M)|eauto].
Qed.

Theorem honest_valid : forall s f c, explores explore_iter (init_mgr now init) P s -> honest f c -> valid_cert (m_v s) c.
Proof.
  intros s f c H HF. destruct (honest_all s H) as (G & K & I & _). destruct (honest_in _ _ _ _ _ _ _ _ _ _ _ _ _ _ _ _ _ HF) as (FP & _ & _).
  destruct (G f c HF FP) as (V & _). destruct (v_valid (m_v s) (c_ski c)) as [a|] eqn:E; [|destruct (V eq_refl)].
  destruct (inv_obj _ _ _ I _ _ (inv_valid _ _ _ I _ _ E)) as (c' & HO & EK).
  destruct (honest_known _ _ _ _ _ _ _ _ _ _ _ _ _ _ _ _ _ _ _ _ _ (incl_refl P) K HF (inv_valid _ _ _ I _ _ E) HO EK) as (-> & _).
  exists a. split; auto. now apply hobj_cert_at.
Qed.

Theorem honest_roa : forall s f r, explores explore_iter (init_mgr now init) P s -> f_type f = TRoa -> contents disk dec_roa f r ->
  honest f (roa_cert r) -> validate_entries (roa_entries r) = true -> roa_inner r = true -> valid_roa (m_v s) r.
Proof.
  intros s f r H FT CR HF VE IN. destruct (honest_all s H) as (G & _). destruct (honest_in _ _ _ _ _ _ _ _ _ _ _ _ _ _ _ _ _ HF) as (FP & _ & _).
  destruct (G f (roa_cert r) HF FP) as (_ & _ & _ & R). destruct (R r FT CR VE IN) as (b & V & O). exists b. split; auto. now apply hobj_roa_at.
Qed.

Lemma seen_as : forall s T p x f', MInv now T P s -> m_queue s = [] -> In f' T -> f_parent f' = Some p -> f_desc f' = x -> undisputed P p x ->
  exists f, In f P /\ f_parent f = Some p /\ f_desc f = x.
Proof.
  intros s T p x f' M Q F1 F2 F3 U. assert (S := mi_seen _ _ _ _ _ _ _ _ _ _ _ _ _ _ _ _ _ _ _ M _ F1). rewrite Q, app_nil_r in S.
  apply in_map_iff in S. destruct S as (f & E & IF). exists f. split; auto. apply U; auto. rewrite E. subst x.
  destruct f' as [i d o]. cbn in F2. subst o. reflexivity.
Qed.

Theorem honest_named : forall s f c x, explores explore_iter (init_mgr now init) P s -> m_queue s = [] -> add_invalid = false ->
  f_type f = TCer -> honest f c -> In x (extract_path_cert c) -> undisputed P f x ->
  exists f', In f' P /\ f_parent f' = Some f /\ f_desc f' = x.
Proof.
  intros s f c x H Q AI FT HF IX U. destruct (honest_all s H) as (G & _ & _ & T & M).
  destruct (honest_in _ _ _ _ _ _ _ _ _ _ _ _ _ _ _ _ _ HF) as (FP & FB & _). destruct (G f c HF FP) as (_ & R & _).
  assert (PT : In f T) by (apply (mi_in _ _ _ _ _ _ _ _ _ _ _ _ _ _ _ _ _ _ _ M), in_or_app; auto).
  destruct (m_rop s (f_id f)) as [a|] eqn:RA; [|destruct (R FT eq_refl)].
  destruct (lookup_reg _ _ _ _ _ _ _ _ _ _ _ _ _ _ _ _ _ _ _ _ _ M PT RA) as (raw1 & d1 & H1 & _ & _ & G1).
  unfold reg_ok in G1. unfold HonestSpec.bears in FB. rewrite FT in G1, FB. destruct G1 as (c' & D1 & _ & _ & K).
  assert (c' = c) by (eapply (contents_fun disk _ dec_cert f); [exists raw1, d1; auto|exact FB]). subst c'.
  destruct (K AI x IX) as (f' & F1 & F2 & F3). exact (seen_as s T f x f' M Q F1 F2 F3 U).
Qed.

Theorem honest_entries : forall s p m, explores explore_iter (init_mgr now init) P s -> m_queue s = [] ->
  f_type p = TMft -> contents disk dec_mft p m -> honest p (mft_cert m) -> mft_inner m = true ->
  forall name h, In (name, h) (mft_files m) -> undisputed P p (mkFile [] name (determine_type name) false (Some h)) ->
  exists f, In f P /\ f_parent f = Some p /\ f_desc f = mkFile [] name (determine_type name) false (Some h).
Proof.
  intros s p m H Q FT CM HF IN name h IX U. destruct (honest_all s H) as (G & _).
  destruct (honest_in _ _ _ _ _ _ _ _ _ _ _ _ _ _ _ _ _ HF) as (FP & FB & _). destruct (G p (mft_cert m) HF FP) as (_ & _ & R & _).
  destruct (reg_mft sig_ok crl_sig_ok dec_tal dec_cert dec_roa dec_mft dec_crl hex_sha1 disk synced sha256 clock strict_manifests strict_hash add_invalid init
    now P s p m H FP (R m FT CM IN) FT CM) as (T & M & K).
  destruct (K name h IX) as (f' & F1 & F2 & F3). exact (seen_as s T p _ f' M Q F1 F2 F3 U).
Qed.

(** * Its ROAs *)
Lemma sound_entries : forall x, sound_roa x -> validate_entries (roa_entries x) = true.
Proof.
  intros x (_ & _ & _ & H). apply validate_entries_all, Forall_forall. intros e IN.
  destruct (H e IN) as (ip & p & E & PL & PR & ML & _). destruct e as [net ml]. cbn [re_net re_maxlen] in *. subst net.
  now apply entry_validate_prefix.
Qed.

Theorem honest_roa_valid : forall s f x, explores explore_iter (init_mgr now init) P s -> f_type f = TRoa -> contents disk dec_roa f x ->
  honest f (roa_cert x) -> sound_roa x -> valid_roa (m_v s) x.
Proof. intros s f x H FT C HF SR. eapply honest_roa; eauto; [now apply sound_entries|apply SR]. Qed.

Theorem honest_exported : forall s f x, explores explore_iter (init_mgr now init) P s -> f_type f = TRoa -> contents disk dec_roa f x ->
  honest f (roa_cert x) -> sound_roa x ->
  forall rs tals filt names paths t dur L j q, produced run rs tals -> nth_error rs j = Some q -> run_state q = m_v s ->
  generate_list filt names paths tals t dur = Ret L ->
  forall ip p ml, In (mkEntry (mkNet ip (cidr_mask p (addr_bits ip))) ml) (roa_entries x) -> plain_addr ip -> (0 <= p <= addr_bits ip)%Z ->
  filt = false \/ (p <= longest ip)%Z ->
  In (ipnet_text (mkNet ip (cidr_mask p (addr_bits ip))), ml, str "AS"%string ++ dec (roa_asn x)) (map vrp (l_data L)).
Proof.
  intros s f x H FT C HF SR rs tals filt names paths t dur L j q PR NQ EQ GL ip p ml IN PL PP FL.
  assert (VR : valid_roa (run_state q) x) by (rewrite EQ; exact (honest_roa_valid s f x H FT C HF SR)).
  destruct SR as (S1 & S2 & _ & S4). destruct (S4 _ IN) as (ip' & p' & E & PL' & PR' & ML & PB & CV). cbn [re_net re_maxlen] in E, ML.
  injection E as <- EM. assert (p = p') by (apply (cidr_mask_inj ip); auto). subst p'.
  refine (exported_all sig_ok crl_sig_ok dec_tal dec_cert dec_roa dec_mft dec_crl hex_sha1 rs tals filt names paths t dur L PR GL
    j q x ip p ml NQ VR IN PL PP ML S1 S2 _ CV FL).
  intros e IE. destruct (S4 e IE) as (ip2 & p2 & E2 & PL2 & PR2 & _ & PB2 & _). exists (length ip2), (first_addr (addr_bits ip2) p2 (addr_val ip2)), (last_addr (addr_bits ip2) p2 (addr_val ip2)).
  split; [|exact PB2]. unfold entry_denotes. rewrite E2. now apply den_prefix.
Qed.
End Honest.
