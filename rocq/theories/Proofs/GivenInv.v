(** An invariant of the manager for chains to trust anchors, whatever else than
    the files of the queue is given to the validator. *)
From Coq Require Import Lia.
From Verif.Model Require Import Base Str Ber Tal Validator Explore Repo.
From Verif.Spec Require Import Trust Discovery CtSpec RepoSpec.
From Verif.Proofs Require Import StrProofs BerProofs HeapProofs Invalidate ValidatorFacts ValidatorInv ValidatorRun ValidatorMisc ValidatorMono
  ExploreFacts ExploreInv ExploreThm Provenance.

Lemma queue_length : forall l s, (length (m_queue (put_files l s)) <= length (m_queue s) + length l)%nat.
Proof.
  induction l as [|f l IH]; intros s; cbn [put_files length]; [lia|].
  destruct (kin _ _ || kin _ _); [specialize (IH s); lia|].
  eapply Nat.le_trans; [apply IH|]. cbn [m_queue]. rewrite app_length. cbn. lia.
Qed.
Lemma cert_files_length : forall c, (length (extract_path_cert c) <= S (length (c_crldp c)))%nat.
Proof.
  intros c. unfold extract_path_cert. rewrite app_length, map_length. destruct (last_sia _ _ _); cbn; lia.
Qed.
Lemma mft_files_length : forall l subs, extract_path_mft l = Some subs -> length subs = length l.
Proof.
  induction l as [|[n h] l IH]; intros subs H; cbn in H; [inversion H; auto|].
  destruct (bad_path n); [discriminate|]. destruct (extract_path_mft l); [|discriminate]. inversion H; subst. cbn. f_equal. auto.
Qed.

Section Given.
Variable sig_ok : cert -> cert -> bool.
Variable crl_sig_ok : cert -> crl -> bool.
Variable dec_tal : bytes -> option tal.
Variable dec_cert : bytes -> option cert.
Variable dec_roa : bytes -> option roa.
Variable dec_mft : bytes -> option mft.
Variable dec_crl : bytes -> option crl.
Variable hex_sha1 : bytes -> bytes.
Variable disk : bytes -> option bytes.
Variable synced : bytes -> bool.
Variable sha256 : bytes -> bytes.
Variable clock : nat -> Z * Z.
Variable strict_manifests : bool.
Variable strict_hash : bool.
Variable add_invalid : bool.
Variable init : list fdesc.
Notation run := (run sig_ok crl_sig_ok dec_tal dec_cert dec_roa dec_mft dec_crl hex_sha1).
Notation add_resource := (add_resource sig_ok crl_sig_ok dec_tal dec_cert dec_roa dec_mft dec_crl hex_sha1).
Notation add := (explore_add sig_ok crl_sig_ok dec_tal dec_cert dec_roa dec_mft dec_crl hex_sha1).
Notation explore_file := (explore_file sig_ok crl_sig_ok dec_tal dec_cert dec_roa dec_mft dec_crl hex_sha1 disk synced sha256 clock strict_manifests strict_hash add_invalid).
Notation holds := (holds disk).
(** What the validator is given after the files in the list were taken. *)
Variable handed : list pkifile -> pkifile -> bytes -> Prop.
Hypothesis handed_more : forall P P' f d, incl P P' -> handed P f d -> handed P' f d.
Hypothesis handed_queue : forall P f raw d, In f P -> holds f raw d -> handed P f d.
Notation anchor := (tal_anchor dec_tal dec_cert hex_sha1 disk).
Notation invals := (invals sig_ok crl_sig_ok dec_tal dec_cert dec_roa dec_mft dec_crl hex_sha1).

Definition op_handed (P : list pkifile) (o : op) : Prop :=
  match o with
  | DoResource f d => handed P f d
  | DoInvalidate _ => True
  | _ => False
  end.

Record RInv (now : Z) (P : list pkifile) (s : mgr) : Prop := {
  ri_run : exists ops, Forall (op_handed P) ops /\ run ops (new_validator now) = VRet (m_v s);
  ri_trust : forall f, In f (P ++ m_queue s) -> fd_trust (f_desc f) = true ->
    exists p, f_parent f = Some p /\ f_type p = TTal /\ f_type f = TCer /\ v_tals (m_v s) (f_path f) <> None;
  ri_tals : forall k a, v_tals (m_v s) k = Some a -> exists p t, In p P /\ f_type p = TTal /\
    contents disk dec_tal p t /\ hobj (v_heap (m_v s)) a = Some (OTal t) /\ get_rsync_uri hex_sha1 t = k;
  ri_anch : ValidatorInv.Inv sig_ok (anchor P) (m_v s) }.

Lemma anchor_mono : forall P P' c, incl P P' -> anchor P c -> anchor P' c.
Proof. intros P P' c S (f & p & t & n & e & H1 & H2 & H3 & H4 & H5). exists f, p, t, n, e. repeat split; auto; apply H5. Qed.

Lemma handed_mono : forall P P' o, incl P P' -> op_handed P o -> op_handed P' o.
Proof. intros P P' [] S H; cbn in *; eauto. Qed.

(** Only the queue, the maps of paths and the counters change. *)
Lemma rinv_more : forall now P P' s s', RInv now P s -> incl P P' -> m_v s' = m_v s ->
  incl (P' ++ m_queue s') (P ++ m_queue s) -> RInv now P' s'.
Proof.
  intros now P P' s s' M S V Q. destruct M as [M1 M2 M3 M4]. constructor; rewrite ?V; auto.
  - destruct M1 as (ops & F & R). exists ops. split; auto. eapply Forall_impl; [|exact F]. intros o. now apply handed_mono.
  - intros k a K. destruct (M3 _ _ K) as (p & t & H1 & H2). exists p, t. auto.
  - eapply inv_mono; [|exact M4]. intros c. now apply anchor_mono.
Qed.

Lemma rinv_invals : forall now P s v, RInv now P s -> invals (m_v s) v -> RInv now P (set_v v s).
Proof.
  intros now P s v M IV. destruct M as [M1 M2 M3 M4].
  assert (TS := invals_same _ _ _ _ _ _ _ _ _ _ IV).
  assert (IA : ValidatorInv.Inv sig_ok (fun _ => True) (m_v s)) by (eapply inv_mono; [|exact M4]; auto).
  destruct (ext_invals _ _ _ _ _ _ _ _ _ _ IA IV) as (X & _).
  constructor; cbn [set_v m_v m_queue]; auto.
  - destruct M1 as (ops & F & R). destruct IV as (ops' & F' & R'). exists (ops ++ ops'). split.
    + apply Forall_app. split; auto. eapply Forall_impl; [|exact F']. intros [] K; cbn in *; tauto.
    + rewrite run_app, R. exact R'.
  - rewrite TS. auto.
  - rewrite TS. intros k a K. destruct (M3 _ _ K) as (p & t & H1 & H2 & H3 & H4 & H5). exists p, t. repeat split; auto.
    now apply (ext_obj _ _ X).
  - destruct IV as (ops & F & R). clear - M4 F R. revert R. generalize (m_v s) M4. clear M4.
    induction ops as [|o ops IH]; intros v0 M4 R; cbn [Validator.run] in R; [inversion R; subst; auto|].
    apply Forall_cons_iff in F. destruct F as [Fo F].
    vb R. apply (IH F y); auto. destruct o; try destruct Fo. cbn [Validator.step] in E. eapply inv_invalidate; eauto.
Qed.

(** * One file is given to the validator *)
Lemma rinv_add : forall ai now P s f d s', RInv now P s -> handed P f d ->
  (fd_trust (f_desc f) = true -> In f P /\ exists raw, holds f raw d) ->
  (f_type f = TTal -> In f P /\ exists raw, holds f raw d) ->
  add ai f d s = VRet s' ->
  RInv now P s' /\ m_explored s' = kset (m_explored s) (compute_path f) true /\
  (length (m_queue s') <= length (m_queue s) +
     match f_type f with TTal => 1 | TCer | TMft => names_bound dec_cert dec_mft d | _ => 0 end)%nat /\
  (forall x, In x (m_queue s') -> In x (m_queue s) \/ f_parent x = Some f /\
     match f_type f with
     | TTal => exists t, dec_tal d = Some t /\ f_desc x = mkFile [] (get_rsync_uri hex_sha1 t) TCer true None
     | TCer => exists c, dec_cert d = Some c /\ In (f_desc x) (extract_path_cert c)
     | TMft => True
     | _ => False
     end).
Proof.
  intros ai now P s f d s' M HA HT HL H. destruct M as [M1 M2 M3 M4].
  assert (I : ValidatorInv.Inv sig_ok (fun _ => True) (m_v s)) by (eapply inv_mono; [|exact M4]; auto).
  unfold Explore.explore_add in H. vb H. destruct y as (v & ((valid & subs) & oa) & err).
  assert (R1 : run [DoResource f d] (m_v s) = VRet v).
  { cbn [Validator.run Validator.step]. unfold vfst. rewrite E. reflexivity. }
  destruct (ext_any _ _ _ _ _ _ _ _ _ _ _ I R1) as (X & I').
  assert (RES := add_resource_result _ _ _ _ _ _ _ _ _ _ _ _ _ _ _ _ _ I E).
  assert (TAL : (forall k, v_tals (m_v s) k <> None -> v_tals v k <> None) /\
    forall k a, v_tals v k = Some a -> v_tals (m_v s) k = Some a \/
      exists t, f_type f = TTal /\ contents disk dec_tal f t /\ hobj (v_heap v) a = Some (OTal t) /\ get_rsync_uri hex_sha1 t = k).
  { destruct (f_type f) eqn:FTY;
      try (rewrite (tals_add_resource _ _ _ _ _ _ _ _ _ _ _ _ _ E) by congruence; auto; fail).
    destruct (tals_add_tal _ _ _ _ _ _ _ _ _ _ _ _ _ _ _ _ E FTY) as [->|(t & D & V & O)]; auto. split.
    - intros k K. rewrite V. unfold kset. destruct (beq k _); [discriminate|auto].
    - intros k a K. rewrite V in K. apply kset_some in K. destruct K as [[-> ->]|[_ K]]; auto.
      right. exists t. split; auto. split; auto. destruct (HL eq_refl) as (_ & raw & HD). exists raw, d. auto. }
  destruct TAL as (TAL1 & TAL2).
  assert (RUN : exists ops, Forall (op_handed P) ops /\ run ops (new_validator now) = VRet v).
  { destruct M1 as (ops & F & R). exists (ops ++ [DoResource f d]). split.
    - apply Forall_app. split; auto.
    - rewrite run_app, R. exact R1. }
  assert (TA0 : forall k a, v_tals v k = Some a -> exists p t, In p P /\ f_type p = TTal /\
    contents disk dec_tal p t /\ hobj (v_heap v) a = Some (OTal t) /\ get_rsync_uri hex_sha1 t = k).
  { intros k a K. destruct (TAL2 _ _ K) as [K'|(t & K1 & K2 & K3 & K4)].
    - destruct (M3 _ _ K') as (p & t & H1 & H2 & H3 & H4 & H5). exists p, t. repeat split; auto. now apply (ext_obj _ _ X).
    - exists f, t. destruct (HL K1). auto 10. }
  assert (AN0 : ValidatorInv.Inv sig_ok (anchor P) v).
  { destruct (fd_trust (f_desc f)) eqn:TRU.
    2:{ eapply inv_add_resource; [exact M4| |exact E]. intros; congruence. }
    destruct (HT eq_refl) as (FP & raw & HD). destruct (M2 f) as (p & PA & PT & FTY & VT); [apply in_or_app; auto|auto|].
    destruct (v_tals (m_v s) (f_path f)) as [ta|] eqn:VTE; [|congruence].
    destruct (M3 _ _ VTE) as (tf & t & T1 & T2 & T3 & T4 & T5). unfold hobj in T4.
    destruct (nth_error (v_heap (m_v s)) ta) as [r|] eqn:NR; [|discriminate]. inversion T4 as [T4'].
    destruct (tal_binding _ _ _ _ _ _ _ _ _ _ _ _ _ _ _ _ _ _ _ _ FTY PA PT VTE NR T4' E)
      as [(c & n & e & DC & A1 & A2 & A3 & A4)|(-> & _)]; [|exact M4].
    eapply inv_add_resource; [exact M4| |exact E]. intros c' _ DC' _. assert (c' = c) by congruence. subst c'.
    exists f, tf, t, n, e. repeat split; auto. exists raw, d. auto. }
  assert (LEN : (length subs <= match f_type f with TTal => 1 | TCer | TMft => names_bound dec_cert dec_mft d | _ => 0 end)%nat).
  { destruct RES as [(_ & _ & ->)|(a & -> & RES)]; [cbn; lia|]. unfold names_bound.
    destruct (f_type f); try (subst subs; cbn; lia).
    - destruct RES as (c & D & _ & _ & R). rewrite D. pose proof (cert_files_length c).
      destruct R as [(-> & _)| ->]; cbn [length]; lia.
    - destruct RES as (m & D & _ & R). rewrite D. apply mft_files_length in R. rewrite R. lia.
    - destruct RES as (t & D & _ & -> & _). cbn [length]. lia. }
  destruct (ai || valid) eqn:AV.
  2:{ inversion H; subst s'. cbn [m_v m_queue m_explored]. split; [|split; [reflexivity|split; [lia|auto]]].
      constructor; cbn [m_v m_queue]; auto. intros f' H1 H2. destruct (M2 _ H1 H2) as (p & K1 & K2 & K3 & K4). exists p. auto. }
  set (s1 := mkM v (m_queue s) (kset (m_explored s) (compute_path f) true) (m_unique s) (m_rop s) (m_next s) (m_tick s)) in *.
  set (new := number_files (m_next s) (Some f) subs) in *.
  assert (QL := queue_length new s1).
  destruct (put_files_spec new s1) as (added & PE & PIN & PND & PU & PNEW & PALL).
  assert (LN : length new = length subs) by apply number_files_length.
  assert (NEWP : forall f', In f' new -> f_parent f' = Some f /\ In (f_desc f') subs) by (intros f' K; now apply number_files_in in K).
  inversion H; subst s'. clear H. cbn [m_v m_queue m_explored].
  assert (QE : m_queue (put_files new s1) = m_queue s ++ added) by (rewrite PE; reflexivity).
  assert (VE : m_v (put_files new s1) = v) by (rewrite PE; reflexivity).
  assert (EE : m_explored (put_files new s1) = kset (m_explored s) (compute_path f) true) by (rewrite PE; reflexivity).
  assert (SUB : forall x, In x added -> f_parent x = Some f /\
     match f_type f with
     | TTal => exists t, dec_tal d = Some t /\ f_desc x = mkFile [] (get_rsync_uri hex_sha1 t) TCer true None /\ v_tals v (get_rsync_uri hex_sha1 t) <> None
     | TCer => exists c, dec_cert d = Some c /\ In (f_desc x) (extract_path_cert c)
     | TMft => fd_trust (f_desc x) = false
     | _ => False
     end).
  { intros x K. destruct (NEWP _ (PIN _ K)) as (A & B). split; auto.
    destruct RES as [(_ & _ & ->)|(a & -> & RES)]; [contradiction|].
    destruct (f_type f) eqn:FTY; try (subst subs; contradiction).
    - destruct RES as (c & D & _ & _ & [(-> & _)| ->]); [contradiction|]. eauto.
    - destruct RES as (m & _ & _ & Y). destruct (extract_mft_in _ _ Y) as (_ & Z). destruct (Z _ B); auto.
    - destruct RES as (t & D & O & -> & V). destruct B as [B|[]]. exists t. repeat split; auto. congruence. }
  split; [|split; [exact EE|split; [fold new; change (m_queue s1) with (m_queue s) in QL; lia|]]].
  - constructor; cbn [m_v m_queue]; fold new; rewrite ?VE, ?QE; auto.
    intros x K1 K2. rewrite app_assoc in K1. apply in_app_or in K1. destruct K1 as [K1|K1].
    + destruct (M2 _ K1 K2) as (p & L1 & L2 & L3 & L4). exists p. auto.
    + destruct (SUB _ K1) as (A & B). exists f. split; auto.
      destruct (f_type f) eqn:FTY; try contradiction.
      * destruct B as (c & _ & B). apply extract_cert_trust in B. congruence.
      * congruence.
      * destruct B as (t & _ & B & C). split; auto. unfold f_type, f_path. rewrite B. cbn. auto.
  - fold new. intros x K. rewrite QE in K. apply in_app_or in K. destruct K as [K|K]; auto. right.
    destruct (SUB _ K) as (A & B). split; auto. destruct (f_type f); auto.
    destruct B as (t & B1 & B2 & _). eauto.
Qed.

Notation found := (found_bound dec_cert dec_mft disk).

Lemma found_names : forall f raw d, holds f raw d ->
  (match f_type f with TTal => 1 | TCer | TMft => names_bound dec_cert dec_mft d | _ => 0 end <= found (compute_path f))%nat.
Proof.
  intros f raw d (H1 & H2). unfold found_bound, names_bound. rewrite H1.
  destruct (f_type f); cbn [is_tal] in H2; try lia; try rewrite H2; try lia. destruct (ber2der raw); lia.
Qed.

Lemma rinv_file : forall now P s f s', RInv now P s -> In f P ->
  explore_file f s = VRet s' ->
  RInv now P s' /\ (forall k, kin (m_explored s) k = true -> kin (m_explored s') k = true) /\
  ((length (m_queue s') <= length (m_queue s))%nat \/
   kin (m_explored s) (compute_path f) = false /\ kin (m_explored s') (compute_path f) = true /\ disk (compute_path f) <> None /\
   (length (m_queue s') <= length (m_queue s) + found (compute_path f))%nat).
Proof.
  intros now P s f s' M FP H.
  assert (I : forall s, RInv now P s -> ValidatorInv.Inv sig_ok (fun _ => True) (m_v s)) by (intros x Y; eapply inv_mono; [|apply (ri_anch _ _ _ Y)]; auto).
  assert (BAD : forall err s1 s2, RInv now P s1 -> explore_bad strict_manifests err f s1 = VRet s2 ->
     RInv now P s2 /\ m_explored s2 = m_explored s1 /\ m_queue s2 = m_queue s1).
  { intros err s1 s2 M1 E.
    apply (explore_bad_spec sig_ok crl_sig_ok dec_tal dec_cert dec_roa dec_mft dec_crl hex_sha1 strict_manifests) in E; auto.
    destruct E as (E & IV & _). rewrite E. split; [now apply rinv_invals|auto]. }
  unfold Explore.explore_file in H. vb H. unfold get_next_file in E.
  destruct (kin (m_explored s) (compute_path f)) eqn:KE.
  { inversion E; subst y. destruct (BAD _ _ _ M H) as (A & B & C). rewrite B, C. auto. }
  apply (get_file_spec disk synced sha256) in E. destruct y as [| |d sha];
    try (destruct (BAD _ _ _ M H) as (A & B & C); rewrite B, C; auto; fail).
  destruct E as (raw & HD & ->). vb H. destruct y as (s1 & ok).
  apply (check_listed_spec sig_ok crl_sig_ok dec_tal dec_cert dec_roa dec_mft dec_crl hex_sha1) in E; auto.
  destruct E as (S1 & IV & _). assert (M1 : RInv now P s1) by (rewrite S1; now apply rinv_invals).
  assert (Q1 : m_queue s1 = m_queue s) by now rewrite S1. assert (X1 : m_explored s1 = m_explored s) by now rewrite S1.
  destruct ok.
  - destruct (rinv_add add_invalid now P s1 f d s' M1) as (A & B & C & _); eauto.
    split; auto. split.
    + intros k K. rewrite B, kin_kset, X1, K. apply orb_true_r.
    + right. split; auto. split; [rewrite B, kin_kset, orb_true_iff; left; now apply beq_eq|].
      split; [destruct HD as (HD & _); congruence|].
      pose proof (found_names _ _ _ HD). rewrite Q1 in C. lia.
  - destruct (BAD _ _ _ M1 H) as (A & B & C). rewrite B, C, Q1, X1. auto.
Qed.

Lemma rinv_init : forall now, (forall x, In x init -> fd_trust x = false) -> RInv now [] (init_mgr now init).
Proof.
  intros now U. unfold init_mgr. set (s0 := mkM _ _ _ _ _ _ _).
  destruct (put_files_spec (number_files 0 None init) s0) as (added & PE & PIN & _). rewrite PE.
  constructor; cbn [m_v m_queue]; subst s0; cbn [m_v m_queue].
  - exists []. split; auto.
  - cbn [app]. intros f K T. apply PIN, number_files_in in K. destruct K as (_ & K). apply U in K. congruence.
  - cbn. discriminate.
  - apply inv_new.
Qed.

Lemma rinv_chain : forall now P s, RInv now P s ->
  (forall c, valid_cert (m_v s) c -> chain_to sig_ok (anchor P) (m_v s) c) /\
  (forall x, valid_roa (m_v s) x -> chain_to sig_ok (anchor P) (m_v s) (roa_cert x)).
Proof.
  intros now P s H. assert (I2 := ri_anch _ _ _ H).
  split.
  - intros c (a & V & CA). eapply chain_of_inv; eauto. now apply hobj_cert_at.
  - intros x (b & V & (r & N & O)). destruct (inv_vroa _ _ _ I2 _ _ V) as (x' & a & O1 & S & VA & OC & _).
    unfold hobj in O1. rewrite N in O1. cbn in O1. rewrite O in O1. inversion O1; subst x'. eapply chain_of_inv; eauto.
Qed.

Lemma file_ends : (forall k raw, disk k = Some raw -> bytes_ok raw = true) ->
  forall T0 s f, ValidatorInv.Inv sig_ok T0 (m_v s) -> explore_file f s <> VFuel.
Proof.
  intros octets T0 s0 f I0.
  unfold Explore.explore_file, get_next_file.
  assert (GF : get_file disk synced sha256 f <> VFuel).
  { unfold get_file. destruct (disk (compute_path f)) as [raw|] eqn:DK; [|discriminate]. destruct (is_tal (f_type f)); [discriminate|].
    destruct (ber2der raw) eqn:B; try discriminate. apply ber2der_terminates in B; [contradiction|eauto]. }
  assert (BN : forall T err s1, ValidatorInv.Inv sig_ok T (m_v s1) -> explore_bad strict_manifests err f s1 <> VFuel).
  { intros T err s1 I1. eapply explore_bad_no_fuel; eauto. }
  assert (AN : forall T d s1, ValidatorInv.Inv sig_ok T (m_v s1) -> add add_invalid f d s1 <> VFuel).
  { intros T d s1 I1. eapply explore_add_no_fuel; eauto. }
  destruct (kin (m_explored s0) (compute_path f)); cbn [vbind]; [eauto|].
  destruct (get_file disk synced sha256 f) as [[| |d sha]| |]; cbn [vbind]; try discriminate; try congruence; eauto.
  unfold check_listed. destruct (fd_hash (f_desc f)) as [h|]; cbn [vbind]; [|eauto].
  destruct strict_hash; cbn [vbind]; [|eauto].
  destruct (listed_stale clock f s0) as [st| |] eqn:LS; cbn [vbind]; [|discriminate|now apply listed_stale_no_fuel in LS].
  destruct (if st then inval_mft_parent f s0 else VRet s0) as [s1| |] eqn:E; cbn [vbind]; [|discriminate|].
  - destruct (set_v_inv sig_ok crl_sig_ok dec_tal dec_cert dec_roa dec_mft dec_crl hex_sha1 _ _ _ _ _ I0 E) as (I1 & _).
    destruct (beq sha h); eauto.
  - destruct st; [|discriminate]. now apply (inval_mft_no_fuel sig_ok T0) in E.
Qed.
End Given.
