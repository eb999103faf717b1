(** Lists found by exploration are used: no certificate they revoke stays valid. *)
From Coq Require Import List ZArith Lia Bool.
From Verif.Model Require Import Base NetIP CertRes Roa Str Ber Tal Validator Explore.
From Verif.Spec Require Import Trust Discovery CrlSpec RevokeSpec.
From Verif.Proofs Require Import StrProofs HeapProofs Invalidate BerProofs ValidatorInv ValidatorRun ValidatorMono ValidatorAccept ValidatorFacts
  ValidatorMisc ValidatorPanic CrlKey ExploreFacts ExploreInv ExploreThm.
Import ListNotations.

Section Explore.
Variable sig_ok : cert -> cert -> bool.
Variable crl_sig_ok : cert -> crl -> bool.
Variable dec_tal : bytes -> option tal.
Variable dec_cert : bytes -> option cert.
Variable dec_roa : bytes -> option roa.
Variable dec_mft : bytes -> option mft.
Variable dec_crl : bytes -> option crl.
Variable hex_sha1 : bytes -> bytes.
Variable disk : bytes -> option bytes.
Variable synced : bytes -> bool.
Variable sha256 : bytes -> bytes.
Variable clock : nat -> Z * Z.
Variable strict_manifests : bool.
Variable strict_hash : bool.
Variable add_invalid : bool.
Variable init : list fdesc.
Notation run := (run sig_ok crl_sig_ok dec_tal dec_cert dec_roa dec_mft dec_crl hex_sha1).
Notation add_resource := (add_resource sig_ok crl_sig_ok dec_tal dec_cert dec_roa dec_mft dec_crl hex_sha1).
Notation add_crl := (add_crl crl_sig_ok).
Notation explore_add := (explore_add sig_ok crl_sig_ok dec_tal dec_cert dec_roa dec_mft dec_crl hex_sha1 add_invalid).
Notation explore_iter := (explore_iter sig_ok crl_sig_ok dec_tal dec_cert dec_roa dec_mft dec_crl hex_sha1 disk synced sha256 clock strict_manifests strict_hash add_invalid).
Notation holds := (holds disk).
Notation MInv := (MInv sig_ok crl_sig_ok dec_tal dec_cert dec_roa dec_mft dec_crl hex_sha1 disk sha256 clock strict_manifests strict_hash add_invalid init).
Notation minv_reach := (minv_reach sig_ok crl_sig_ok dec_tal dec_cert dec_roa dec_mft dec_crl hex_sha1 disk synced sha256 clock strict_manifests strict_hash add_invalid init).
Notation minv_step := (minv_step sig_ok crl_sig_ok dec_tal dec_cert dec_roa dec_mft dec_crl hex_sha1 disk synced sha256 clock strict_manifests strict_hash add_invalid init).
Notation invals := (invals sig_ok crl_sig_ok dec_tal dec_cert dec_roa dec_mft dec_crl hex_sha1).
Notation op_from := (op_from disk sha256 strict_hash).
Notation hash_ok := (hash_ok sha256 strict_hash).
Notation usable := (usable disk sha256 strict_hash).
Notation Inv := (Inv sig_ok).
Notation anchor := (given_as_anchor dec_cert).
Notation anchor_file := (anchor_file disk dec_cert).

(** * One file *)
Lemma put_files_v : forall l s, m_v (put_files l s) = m_v s.
Proof.
  intros l s. destruct (put_files_spec l s) as (added & E & _). rewrite E. reflexivity.
Qed.

Lemma explore_add_v : forall f d s s', explore_add f d s = VRet s' -> exists res, add_resource f d (m_v s) = VRet (m_v s', res).
Proof.
  intros f d s s' H. unfold Explore.explore_add in H. vb H. destruct y as (v & ((valid & subs) & oa) & err).
  exists (valid, subs, oa, err). destruct (add_invalid || valid).
  - inversion H; subst s'. cbn [m_v]. rewrite put_files_v. reflexivity.
  - inversion H; subst s'. reflexivity.
Qed.

Lemma iter_cases : forall now T P s f q s', MInv now T P s -> m_queue s = f :: q -> explore_iter s = VRet s' ->
  exists v1, invals (m_v s) v1 /\
    ((m_v s' = v1 /\ ~ usable f) \/
     exists raw d res, holds f raw d /\ hash_ok f raw /\ add_resource f d v1 = VRet (m_v s', res)).
Proof.
  intros now T P s f q s' M Q H.
  assert (I := minv_inv _ _ _ _ _ _ _ _ _ _ _ _ _ _ _ _ _ _ _ M).
  unfold Explore.explore_iter in H. rewrite Q in H.
  set (s0 := mkM (m_v s) q (m_explored s) (m_unique s) (m_rop s) (m_next s) (S (m_tick s))) in *.
  assert (NP : ~ In (compute_path f) (map compute_path P)).
  { assert (ND := mi_nodup _ _ _ _ _ _ _ _ _ _ _ _ _ _ _ _ _ _ _ M). rewrite Q, map_app in ND. cbn [map] in ND.
    apply NoDup_remove_2 in ND. intros K. apply ND. apply in_or_app. auto. }
  unfold Explore.explore_file in H. vb H. unfold get_next_file in E.
  assert (NE : kin (m_explored s0) (compute_path f) = false).
  { destruct (kin (m_explored s0) (compute_path f)) eqn:K; auto. apply (mi_expl _ _ _ _ _ _ _ _ _ _ _ _ _ _ _ _ _ _ _ M) in K. contradiction. }
  rewrite NE in E. apply get_file_spec in E.
  assert (BAD : forall err s1, invals (m_v s) (m_v s1) -> explore_bad strict_manifests err f s1 = VRet s' -> invals (m_v s) (m_v s')).
  { intros err s1 IV EB. destruct (ext_invals _ _ _ _ _ _ _ _ _ _ I IV) as (_ & I1).
    eapply explore_bad_spec in EB; [|exact I1]. destruct EB as (_ & EB & _). eapply invals_trans; eauto. }
  destruct y as [| |d sha].
  - exists (m_v s'). split; [eapply (BAD true s0); eauto; apply invals_refl|]. left. split; auto.
    intros (raw & d & K & _). apply E. eauto.
  - exists (m_v s'). split; [eapply (BAD false s0); eauto; apply invals_refl|]. left. split; auto.
    intros (raw & d & K & _). apply E. eauto.
  - destruct E as (raw & HD & ->). vb H. destruct y as (s1 & ok).
    eapply check_listed_spec in E. destruct E as (_ & IV & OK & _). destruct ok.
    + apply explore_add_v in H. destruct H as (res & H). exists (m_v s1). split; [exact IV|]. right.
      exists raw, d, res. split; auto. split; auto.
      intros SH h Hh. rewrite Hh, SH in OK. symmetry in OK. now apply beq_eq in OK.
    + exists (m_v s'). split; [eapply (BAD true s1); eauto|]. left. split; auto.
      intros (raw' & d' & K & HK). destruct (holds_fun _ _ _ _ _ _ HD K) as (<- & <-).
      destruct (fd_hash (f_desc f)) as [h|] eqn:FH; [|discriminate OK].
      destruct strict_hash eqn:SH; [|discriminate OK]. rewrite (HK eq_refl h FH) in OK.
      rewrite beq_refl in OK. discriminate OK.
Qed.

Lemma rest_run : forall now l s s' T P, explores explore_iter s l s' -> MInv now T P s ->
  exists ops, Forall (op_from (P ++ l)) ops /\ run ops (m_v s) = VRet (m_v s').
Proof.
  intros now l s s' T P H. revert T P. induction H as [s|s f q s1 l s2 Q E H IH]; intros T P M.
  - exists []. split; [constructor|reflexivity].
  - destruct (minv_step _ _ _ _ _ _ _ M Q E) as (T1 & _ & M1). destruct (IH _ _ M1) as (ops & F & R).
    destruct (iter_cases _ _ _ _ _ _ _ M Q E) as (v1 & (o1 & F1 & R1) & C).
    rewrite <- app_assoc in F. cbn [app] in F.
    assert (FI : Forall (op_from (P ++ f :: l)) o1).
    { eapply Forall_impl; [|exact F1]. intros [] K; cbn in K |- *; auto; contradiction. }
    destruct C as [(<- & _)|(raw & d & res & HD & HK & A)].
    + exists (o1 ++ ops). split; [now apply Forall_app|]. rewrite run_app, R1. exact R.
    + exists (o1 ++ [DoResource f d] ++ ops). split.
      * apply Forall_app. split; auto. constructor; auto. cbn. split; [apply in_or_app; right; left; auto|eauto].
      * rewrite run_app, R1. cbn [app vbind Validator.run Validator.step]. unfold vfst. rewrite A. exact R.
Qed.

(** The moment a file of the exploration was taken. *)
Lemma taken_at : forall now l s s' T P f, explores explore_iter s l s' -> MInv now T P s -> In f l ->
  exists l1 l2 T1 s1 q s2 T2, l = l1 ++ f :: l2 /\ MInv now T1 (P ++ l1) s1 /\ m_queue s1 = f :: q /\
    explore_iter s1 = VRet s2 /\ MInv now T2 (P ++ l1 ++ [f]) s2 /\ explores explore_iter s2 l2 s'.
Proof.
  intros now l s s' T P f H. revert T P. induction H as [s|s f0 q s1 l s2 Q E H IH]; intros T P M I; [destruct I|].
  destruct (minv_step _ _ _ _ _ _ _ M Q E) as (T1 & _ & M1). destruct I as [->|I].
  - exists [], l, T, s, q, s1, T1. rewrite app_nil_r. refine (conj eq_refl (conj M (conj Q (conj E (conj M1 H))))).
  - destruct (IH _ _ M1 I) as (l1 & l2 & T2 & x1 & q1 & x2 & T3 & -> & A & B & C & D & F).
    exists (f0 :: l1), l2, T2, x1, q1, x2, T3. rewrite <- app_assoc in A, D. cbn [app] in A, D.
    refine (conj eq_refl (conj A (conj B (conj C (conj D F))))).
Qed.

Lemma anchor_from : forall P ops c, Forall (op_from P) ops -> anchor ops c -> anchor_file P c.
Proof.
  intros P ops c F [K|(f & d & K & T & D & TR)]; rewrite Forall_forall in F; apply F in K; [destruct K|].
  destruct K as (IP & raw & HD & _). exists f. repeat split; auto. exists raw, d. auto.
Qed.

(** * A list that is accepted removes what it lists *)
Lemma apart_mono : forall v v', ext v v' -> serials_apart v' -> serials_apart v.
Proof.
  intros v v' X A c1 c2 (a1 & O1 & C1) (a2 & O2 & C2). apply hobj_cert_at in C1. apply hobj_cert_at in C2. apply A.
  - exists a1. split; [now apply (ext_objects _ _ X)|]. apply hobj_cert_at. now apply (ext_obj _ _ X).
  - exists a2. split; [now apply (ext_objects _ _ X)|]. apply hobj_cert_at. now apply (ext_obj _ _ X).
Qed.

Lemma accepted_removes : forall ops now v l v1 a c,
  run ops (new_validator now) = VRet v -> add_crl l v = VRet (v1, (true, a)) ->
  In (c_serial c) (crl_serials l) -> c_aki c = crl_aki (crl_exts l) [] -> ~ anchor ops c ->
  serials_apart v -> ~ valid_cert v1 c.
Proof.
  intros ops now v l v1 a c R H IN CA NA SU (x & VX & CX).
  destruct (inv_run _ _ _ _ _ _ _ _ _ _ _ R) as (I & _). apply hobj_cert_at in CX.
  assert (IX : indexed v).
  { apply (indexed_run sig_ok crl_sig_ok dec_tal dec_cert dec_roa dec_mft dec_crl hex_sha1 (anchor ops) ops (new_validator now) v); auto; [apply inv_new|].
    unfold indexed. cbn. discriminate. }
  assert (V0 := shrink_add_crl _ _ _ _ _ H _ _ VX).
  assert (X := ext_add_crl _ _ _ _ _ H).
  destruct (inv_obj _ _ _ I _ _ (inv_valid _ _ _ I _ _ V0)) as (c2 & H2 & _).
  assert (c2 = c) by (pose proof (ext_obj _ _ X _ _ H2); congruence). subst c2.
  assert (VC : valid_cert v c) by (exists x; split; [exact V0|now apply hobj_cert_at]).
  assert (KC := valid_known _ _ _ _ I VC).
  destruct (inv_chain _ _ _ I _ _ _ V0 H2) as (_ & [T|(pa & pc & PV & PH & SG & PP)]); [contradiction|].
  assert (SE := IX _ _ _ V0 H2). rewrite PP in SE. specialize (SE ltac:(discriminate)).
  unfold kin in SE. destruct (v_serial v (serial_key (c_aki c) (c_serial c))) as [y|] eqn:SEQ; [|discriminate].
  destruct (inv_serial _ _ _ I _ _ SEQ) as (c' & HC' & KE & OC').
  assert (KC' : known_cert v c') by (exists y; split; [exact OC'|now apply hobj_cert_at]).
  destruct (SU _ _ KC KC' KE) as (EQ2 & ESKI).
  apply add_crl_cases in H. destruct H as (-> & [[F _]|(_ & p & pc' & v3 & O & VV & HO & _ & RL & ->)]); [discriminate|].
  cbn [put_crl upd set_heap v_valid] in VX.
  assert (I2 : Inv (anchor ops) (put_validcrl (crl_aki (crl_exts l) []) (length (v_heap v))
    (alloc (new_res TCrl (v_objects v (crl_aki (crl_exts l) [])) None (OCrl l)) v))).
  { apply (inv_put_validcrl sig_ok _ _ _ _ l); auto.
    - cbn. rewrite hobj_alloc, Nat.eqb_refl. reflexivity.
    - now apply inv_crl_alloc. }
  assert (RR := revoke_loop_removes _ _ _ _ _ _ I2 RL (c_serial c) y c' IN).
  cbn [put_validcrl alloc set_heap v_serial v_heap] in RR.
  rewrite <- CA in RR. specialize (RR SEQ).
  rewrite hobj_alloc in RR. pose proof (hobj_lt _ _ _ HC').
  destruct (Nat.eqb_spec y (length (v_heap v))); [lia|]. specialize (RR HC'). rewrite <- EQ2 in RR.
  specialize (RR eq_refl). rewrite <- ESKI in RR. congruence.
Qed.

(** AddResource with a list: AddCRL, and perhaps the record of the file. *)
Lemma add_list_file : forall f d l v v' res, f_type f = TCrl -> dec_crl d = Some l -> add_resource f d v = VRet (v', res) ->
  exists v1 r, add_crl l v = VRet (v1, r) /\ v_valid v' = v_valid v1 /\ v_revoked v' = v_revoked v1 /\
    forall a, hobj (v_heap v') a = hobj (v_heap v1) a.
Proof.
  intros f d l v v' res T D H. unfold Validator.add_resource in H. rewrite T, D in H. vb H. destruct y as (v1 & valid & a).
  vb H. vb H. exists v1, (valid, a). split; auto. destruct (beq y y0); inversion H; subst.
  - repeat split; auto. intros b. cbn. apply hobj_upd_meta. apply meta_file.
  - repeat split; auto.
Qed.

Lemma accepts : forall T v l v1 b a p pc, Inv T v -> add_crl l v = VRet (v1, (b, a)) ->
  v_valid v (crl_aki (crl_exts l) []) = Some p -> hobj (v_heap v) p = Some (OCert pc) -> crl_sig_ok pc l = true -> b = true.
Proof.
  intros T v l v1 b a p pc I H V O SG. unfold Validator.add_crl in H. unfold kin in H. rewrite V in H.
  rewrite (inv_valid _ _ _ I _ _ V) in H. destruct (deref_of_hobj _ _ _ O) as (r & D & RO). rewrite D in H. cbn [vbind] in H.
  rewrite RO, SG in H. vb H. destruct y as (v2 & b2). vb E. inversion E; subst. inversion H; subst. reflexivity.
Qed.

(** * The lists of an exploration *)
(** What is valid later and known now is valid now. *)
Lemma valid_before : forall v v' c, Inv (fun _ => True) v -> Inv (fun _ => True) v' -> ext v v' ->
  v_objects v (c_ski c) <> None -> valid_cert v' c ->
  exists a, v_valid v (c_ski c) = Some a /\ hobj (v_heap v) a = Some (OCert c).
Proof.
  intros v v' c I I' X K (a' & V & C). destruct (v_valid v (c_ski c)) as [a|] eqn:E.
  - exists a. split; auto. assert (O := inv_valid _ _ _ I _ _ E). assert (O' := ext_objects _ _ X _ _ O).
    rewrite (inv_valid _ _ _ I' _ _ V) in O'. inversion O'; subst a'. apply hobj_cert_at in C.
    destruct (inv_obj _ _ _ I _ _ O) as (c2 & H2 & _). rewrite H2. rewrite (ext_obj _ _ X _ _ H2) in C. exact C.
  - assert (D : dead v' (c_ski c)) by (eapply dead_ext; [exact X|split; auto]). destruct D as (_ & D). congruence.
Qed.

Lemma anchor_file_mono : forall P P' c, incl P P' -> anchor_file P c -> anchor_file P' c.
Proof. intros P P' c S (f & A & B). exists f. split; [now apply S|exact B]. Qed.

Theorem revoked_not_valid : forall now P s c, explores explore_iter (init_mgr now init) P s -> serials_apart (m_v s) ->
  revoked disk sha256 dec_cert dec_crl crl_sig_ok P (m_v s) c -> ~ anchor_file P c -> ~ valid_cert (m_v s) c.
Proof.
  intros now P s c H SA (f & l & ca & FP & FT & GC & CL & PU & VA & KA & LA & SG & IN) NA VC. apply names_issuer_read in LA.
  destruct (minv_init sig_ok crl_sig_ok dec_tal dec_cert dec_roa dec_mft dec_crl hex_sha1 disk sha256 clock strict_manifests strict_hash add_invalid init now) as (T0 & M0).
  destruct (taken_at _ _ _ _ _ _ _ H M0 FP) as (l1 & l2 & T1 & s1 & q & s2 & T2 & EP & M1 & Q & IT & M2 & REST).
  cbn [app] in M1, M2.
  destruct (rest_run _ _ _ _ _ _ REST M2) as (opsC & FC & RC).
  destruct (mi_run _ _ _ _ _ _ _ _ _ _ _ _ _ _ _ _ _ _ _ M1) as (opsA & FA & RA).
  assert (I1 := minv_inv _ _ _ _ _ _ _ _ _ _ _ _ _ _ _ _ _ _ _ M1).
  assert (I2 := minv_inv _ _ _ _ _ _ _ _ _ _ _ _ _ _ _ _ _ _ _ M2).
  destruct (iter_cases _ _ _ _ _ _ _ M1 Q IT) as (v1 & IV & [(_ & NU)|(raw & d & res & HD & HK & AR)]).
  { apply NU. destruct GC as (raw & d & HD & HH). exists raw, d. split; auto. intros _. exact HH. }
  destruct (ext_invals _ _ _ _ _ _ _ _ _ _ I1 IV) as (X1 & Iv).
  assert (RD : run [DoResource f d] v1 = VRet (m_v s2)).
  { cbn [Validator.run Validator.step]. unfold vfst. rewrite AR. reflexivity. }
  destruct (ext_any _ _ _ _ _ _ _ _ _ _ _ Iv RD) as (X2 & _).
  destruct (ext_any _ _ _ _ _ _ _ _ _ _ _ I2 RC) as (X3 & I3).
  assert (X13 : ext (m_v s1) (m_v s)) by (eapply ext_trans; [exact X1|]; eapply ext_trans; [exact X2|exact X3]).
  assert (Xv3 : ext v1 (m_v s)) by (eapply ext_trans; [exact X2|exact X3]).
  assert (P1 : incl l1 P) by (rewrite EP; intros x K; apply in_or_app; auto).
  assert (FT1 : In f T1) by (apply (mi_in _ _ _ _ _ _ _ _ _ _ _ _ _ _ _ _ _ _ _ M1); rewrite Q; apply in_or_app; right; left; auto).
  (* the issuer was known *)
  assert (K1 : v_objects (m_v s1) (c_aki c) <> None).
  { destruct PU as [(p & g & c0 & L & C0 & S0)|(g & c0 & PG & GT & C0 & V0 & N0 & S0)].
    - destruct (listed_reg _ _ _ _ _ _ _ _ _ _ _ _ _ _ _ _ _ _ _ _ _ _ _ M1 FT1 L C0) as (a & b & _ & _ & O & _).
      now rewrite <- S0.
    - destruct (mi_par _ _ _ _ _ _ _ _ _ _ _ _ _ _ _ _ _ _ _ M1 _ _ FT1 PG) as (GP & RG).
      destruct (m_rop s1 (f_id g)) as [a|] eqn:RA1; [|congruence].
      assert (GT1 : In g T1) by (apply (mi_in _ _ _ _ _ _ _ _ _ _ _ _ _ _ _ _ _ _ _ M1), in_or_app; auto).
      destruct (lookup_reg _ _ _ _ _ _ _ _ _ _ _ _ _ _ _ _ _ _ _ _ _ M1 GT1 RA1) as (raw1 & d1 & H1 & _ & _ & G1).
      destruct C0 as (raw0 & d0 & H0 & D0). destruct (holds_fun _ _ _ _ _ _ H0 H1) as (<- & <-).
      unfold reg_ok in G1. rewrite GT in G1. destruct G1 as (c' & C1 & C2 & C3 & _). assert (c' = c0) by congruence. subst c'.
      destruct (valid_before _ _ _ I1 I3 X13 C3 V0) as (b & VB & OB).
      destruct (inv_run _ _ _ _ _ _ _ _ _ _ _ RA) as (IA & _).
      destruct (inv_chain _ _ _ IA _ _ _ VB OB) as (_ & [TA|(pa & pc & PV & _)]).
      + exfalso. apply N0. apply (anchor_file_mono l1); auto. eapply anchor_from; eauto.
      + rewrite <- S0. rewrite (inv_valid _ _ _ IA _ _ PV). discriminate. }
  assert (Kv : v_objects v1 (c_ski ca) <> None).
  { rewrite KA. destruct (v_objects (m_v s1) (c_aki c)) as [o|] eqn:OE; [|congruence]. rewrite (ext_objects _ _ X1 _ _ OE). discriminate. }
  destruct (valid_before _ _ _ Iv I3 Xv3 Kv VA) as (pa & PV & PO). rewrite KA, <- LA in PV.
  destruct CL as (raw' & d' & HD' & DL). destruct (holds_fun _ _ _ _ _ _ HD HD') as (<- & <-).
  destruct (add_list_file _ _ _ _ _ _ FT DL AR) as (vc & (b & a) & AC & EV & ER & EH).
  assert (b = true) by exact (accepts _ _ _ _ _ _ _ _ Iv AC PV PO SG). subst b.
  destruct IV as (opsI & FI & RI).
  assert (Rv : run (opsA ++ opsI) (new_validator now) = VRet v1) by (rewrite run_app, RA; exact RI).
  assert (NV : ~ valid_cert vc c).
  { eapply accepted_removes; [exact Rv|exact AC|exact IN|now symmetry| |now apply (apart_mono _ _ Xv3)].
    intros AN. apply NA, (anchor_file_mono l1); auto. apply (anchor_from l1 (opsA ++ opsI)); auto. apply Forall_app. split; auto.
    eapply Forall_impl; [|exact FI]. intros [] K; cbn in K |- *; auto; contradiction. }
  assert (NV2 : ~ valid_cert (m_v s2) c).
  { intros (x & V & C). apply NV. exists x. rewrite <- EV. split; auto. apply hobj_cert_at. rewrite <- EH. now apply hobj_cert_at. }
  apply NV2. refine (marked_never_accepted sig_ok crl_sig_ok dec_tal dec_cert dec_roa dec_mft dec_crl hex_sha1 (fun _ => True) opsC (m_v s2) (m_v s) I2 _ RC c _ VC _).
  - auto.
  - rewrite ER. apply (crl_marks _ _ _ _ _ AC). right. exists (c_serial c). rewrite LA. auto.
  - intros AN. apply NA. apply (anchor_from _ _ _ FC) in AN. rewrite <- app_assoc in AN. cbn [app] in AN. now rewrite EP.
Qed.

Notation bad P v := (fun c => revoked disk sha256 dec_cert dec_crl crl_sig_ok P v c /\ ~ anchor_file P c).

(** Every valid certificate and ROA has a chain without revoked certificates. *)
Theorem clean_chains : forall now P s, explores explore_iter (init_mgr now init) P s -> (forall x, In x init -> fd_trust x = false) ->
  serials_apart (m_v s) ->
  (forall c, valid_cert (m_v s) c -> clean_chain sig_ok (tal_anchor dec_tal dec_cert hex_sha1 disk P) (bad P (m_v s)) (m_v s) c) /\
  (forall x, valid_roa (m_v s) x -> clean_chain sig_ok (tal_anchor dec_tal dec_cert hex_sha1 disk P) (bad P (m_v s)) (m_v s) (roa_cert x)).
Proof.
  intros now P s H U SA.
  assert (CH : forall c, chain_to sig_ok (tal_anchor dec_tal dec_cert hex_sha1 disk P) (m_v s) c ->
    clean_chain sig_ok (tal_anchor dec_tal dec_cert hex_sha1 disk P) (bad P (m_v s)) (m_v s) c).
  { intros c C. induction C as [c V W A|c p V W A SG C IH].
    - now apply cc_anchor.
    - apply (cc_link _ _ _ _ c p); auto. intros (R & N). exact (revoked_not_valid _ _ _ _ H SA R N V). }
  destruct (explored_chain sig_ok crl_sig_ok dec_tal dec_cert dec_roa dec_mft dec_crl hex_sha1 disk synced sha256 clock strict_manifests strict_hash add_invalid init now P s H U) as (A & B).
  split; intros; apply CH; auto.
Qed.
End Explore.
