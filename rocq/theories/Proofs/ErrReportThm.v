(** The reports of the manager: whole explorations, and what the type of a
    report says. *)
From Coq Require Import Lia.
From Verif.Model Require Import Base NetIP CertRes Roa Str Ber Tal Validator Explore ErrReport.
From Verif.Spec Require Import Trust Discovery ErrReportSpec.
From Verif.Proofs Require Import StrProofs HeapProofs ValidatorInv ValidatorRun CtProofs ExploreInv ErrReportProofs.

Lemma explores_snoc : forall iter s l s1 f q s2, explores iter s l s1 -> m_queue s1 = f :: q -> iter s1 = VRet s2 ->
  explores iter s (l ++ [f]) s2.
Proof.
  intros iter s l s1 f q s2 H Q I. induction H as [s|s g q' s3 l s4 A B C IH].
  - cbn. eapply ex_step; eauto. constructor.
  - cbn. eapply ex_step; eauto.
Qed.
Lemma with_cons : forall iter x l s s', explored_with iter s (x :: l) s' ->
  exists s1 q, m_queue s = fst x :: q /\ iter s = VRet (s1, snd x) /\ explored_with iter s1 l s'.
Proof. intros iter x l s s' H. inversion H; subst. cbn [fst snd]. eauto. Qed.
Lemma with_split : forall iter l1 x l2 s s', explored_with iter s (l1 ++ x :: l2) s' ->
  exists s1 s2 q, explored_with iter s l1 s1 /\ m_queue s1 = fst x :: q /\ iter s1 = VRet (s2, snd x) /\ explored_with iter s2 l2 s'.
Proof.
  intros iter. induction l1 as [|y l1 IH]; intros x l2 s s' H.
  - destruct (with_cons _ _ _ _ _ H) as (s1 & q & A & B & C). exists s, s1, q. repeat split; auto. constructor.
  - cbn in H. destruct (with_cons _ _ _ _ _ H) as (s1 & q & A1 & B1 & C1). destruct (IH _ _ _ _ C1) as (s3 & s4 & q' & A & B & C & D).
    exists s3, s4, q'. repeat split; auto. destruct y. eapply ew_step; eauto.
Qed.

Section Reports.
Variable sig_ok : cert -> cert -> bool.
Variable crl_sig_ok : cert -> crl -> bool.
Variable dec_tal : bytes -> option tal.
Variable dec_cert : bytes -> option cert.
Variable dec_roa : bytes -> option roa.
Variable dec_mft : bytes -> option mft.
Variable dec_crl : bytes -> option crl.
Variable hex_sha1 : bytes -> bytes.
Variable disk : bytes -> option bytes.
Variable synced : bytes -> bool.
Variable sha256 : bytes -> bytes.
Variable clock : nat -> Z * Z.
Variable strict_manifests : bool.
Variable strict_hash : bool.
Variable init : list fdesc.
Notation run := (run sig_ok crl_sig_ok dec_tal dec_cert dec_roa dec_mft dec_crl hex_sha1).
Notation resource_error := (resource_error sig_ok crl_sig_ok dec_tal dec_cert dec_roa dec_mft dec_crl).
Notation explore_iter := (explore_iter sig_ok crl_sig_ok dec_tal dec_cert dec_roa dec_mft dec_crl hex_sha1 disk synced sha256 clock strict_manifests strict_hash false).
Notation iter_rep := (iter_rep sig_ok crl_sig_ok dec_tal dec_cert dec_roa dec_mft dec_crl hex_sha1 disk synced sha256 clock strict_manifests strict_hash false).
Notation file_rep := (file_rep sig_ok crl_sig_ok dec_tal dec_cert dec_roa dec_mft dec_crl hex_sha1 disk synced sha256 clock strict_manifests strict_hash false).
Notation MInv := (MInv sig_ok crl_sig_ok dec_tal dec_cert dec_roa dec_mft dec_crl hex_sha1 disk sha256 clock strict_manifests strict_hash false init).
Notation minv_reach := (minv_reach sig_ok crl_sig_ok dec_tal dec_cert dec_roa dec_mft dec_crl hex_sha1 disk synced sha256 clock strict_manifests strict_hash false init).
Notation iter_drop := (iter_drop sig_ok crl_sig_ok dec_tal dec_cert dec_roa dec_mft dec_crl hex_sha1 disk synced sha256 clock strict_manifests strict_hash false).
Notation with_explores := (with_explores sig_ok crl_sig_ok dec_tal dec_cert dec_roa dec_mft dec_crl hex_sha1 disk synced sha256 clock strict_manifests strict_hash false).
Notation file_outcome := (file_outcome sig_ok crl_sig_ok dec_tal dec_cert dec_roa dec_mft dec_crl hex_sha1 disk synced sha256 clock strict_manifests strict_hash false).

(** * Whole explorations *)
Lemma apart : forall now P s f g q, explores explore_iter (init_mgr now init) P s -> m_queue s = g :: q -> In f P ->
  f_id f <> f_id g /\ compute_path f <> compute_path g.
Proof.
  intros now P s f g q H Q IP. destruct (minv_reach _ _ _ H) as (T & M).
  assert (ND := mi_nodup _ _ _ _ _ _ _ _ _ _ _ _ _ _ _ _ _ _ _ M). rewrite Q, map_app in ND.
  assert (NP : compute_path f <> compute_path g).
  { intros E. cbn [map] in ND. apply NoDup_remove_2 in ND. apply ND, in_or_app. left. rewrite <- E. now apply in_map. }
  split; auto. intros E. apply NP.
  assert (FT : In f T) by (apply (mi_in _ _ _ _ _ _ _ _ _ _ _ _ _ _ _ _ _ _ _ M), in_or_app; auto).
  assert (GT : In g T) by (apply (mi_in _ _ _ _ _ _ _ _ _ _ _ _ _ _ _ _ _ _ _ M), in_or_app; rewrite Q; right; left; auto).
  apply In_nth_error in FT. destruct FT as (i & I1). apply In_nth_error in GT. destruct GT as (j & J1).
  assert (A1 := mi_tab _ _ _ _ _ _ _ _ _ _ _ _ _ _ _ _ _ _ _ M _ _ I1).
  assert (A2 := mi_tab _ _ _ _ _ _ _ _ _ _ _ _ _ _ _ _ _ _ _ M _ _ J1). assert (i = j) by congruence. subst j. congruence.
Qed.

Lemma rest_keeps : forall now f l P s s', explores explore_iter (init_mgr now init) P s -> In f P -> explored_with iter_rep s l s' ->
  m_rop s' (f_id f) = m_rop s (f_id f).
Proof.
  intros now f l. induction l as [|(g & r) l IH]; intros P s s' H IP W; [inversion W; reflexivity|].
  destruct (with_cons _ _ _ _ _ W) as (s1 & q & H3 & H4 & H6). cbn [fst snd] in H3, H4.
  destruct (apart _ _ _ _ _ _ H H3 IP) as (NI & _).
  assert (I : explore_iter s = VRet s1) by (rewrite iter_drop, H4; reflexivity).
  rewrite (IH (P ++ [g]) s1 s' (explores_snoc _ _ _ _ _ _ _ H H3 I) (in_or_app _ _ _ (or_introl IP)) H6).
  unfold ErrReport.iter_rep in H4. rewrite H3 in H4. destruct (file_outcome _ _ _ _ eq_refl H4) as (_ & K & _).
  rewrite (K _ NI). reflexivity.
Qed.

Lemma accounted : forall now l s f rs, explored_with iter_rep (init_mgr now init) l s -> In (f, rs) l ->
  (registered s f /\ forall r, In r rs -> ca_report f r) \/
  (~ registered s f /\
   (((exists r, In r rs /\ own_report f r) /\ forall r, In r rs -> own_report f r \/ ca_report f r) \/
    (unreadable disk f /\ synced (f_path f) = false /\ forall r, In r rs -> ca_report f r) \/
    (f_type f = TCrl /\ In (mkRep None None None) rs /\ forall r, In r rs -> r = mkRep None None None \/ ca_report f r))).
Proof.
  intros now l s f rs W IN. apply in_split in IN. destruct IN as (l1 & l2 & ->).
  destruct (with_split _ _ _ _ _ _ W) as (s1 & s2 & q & W1 & Q & I & W2). cbn [fst snd] in Q, I.
  assert (E1 := with_explores _ _ _ W1).
  assert (I' : explore_iter s1 = VRet s2) by (rewrite iter_drop, I; reflexivity).
  assert (E2 := explores_snoc _ _ _ _ _ _ _ E1 Q I').
  assert (IF : In f (map fst l1 ++ [f])) by (apply in_or_app; right; left; reflexivity).
  assert (K := rest_keeps _ f _ _ _ _ E2 IF W2).
  destruct (minv_reach _ _ _ E1) as (T & M).
  assert (NR : m_rop s1 (f_id f) = None).
  { destruct (m_rop s1 (f_id f)) as [a|] eqn:R; auto. exfalso.
    destruct (mi_rop _ _ _ _ _ _ _ _ _ _ _ _ _ _ _ _ _ _ _ M _ _ R) as (f' & raw & d & N & IP & _).
    assert (A := mi_tab _ _ _ _ _ _ _ _ _ _ _ _ _ _ _ _ _ _ _ M _ _ N).
    destruct (apart _ _ _ _ _ _ E1 Q IP) as (NI & _). congruence. }
  unfold ErrReport.iter_rep in I. rewrite Q in I. destruct (file_outcome _ _ _ _ eq_refl I) as (O & _). unfold registered. rewrite K.
  destruct O as [R C|R X C|R X|R U SY C|R T1 X C].
  - left. auto.
  - right. rewrite R. cbn [m_rop]. rewrite NR. split; [intros Y; now apply Y|]. auto.
  - exfalso. cbn [m_explored] in X. apply (mi_expl _ _ _ _ _ _ _ _ _ _ _ _ _ _ _ _ _ _ _ M) in X.
    apply in_map_iff in X. destruct X as (g & EG & IG). destruct (apart _ _ _ _ _ _ E1 Q IG) as (_ & NP). congruence.
  - right. rewrite R. cbn [m_rop]. rewrite NR. split; [intros Y; now apply Y|]. auto.
  - right. rewrite R. cbn [m_rop]. rewrite NR. split; [intros Y; now apply Y|]. auto.
Qed.

(** * The type of a report *)
Lemma ip_chain_missing : forall fuel T v key ch chk inv, Inv sig_ok T v ->
  ip_chain fuel (v_heap v) (v_valid v) key ch chk inv = VRet None -> v_valid v key = None.
Proof.
  induction fuel as [|fuel IH]; intros T v key ch chk inv I H; cbn [ip_chain] in H; destruct ch as [a|]; try discriminate; destruct chk; try discriminate.
  destruct (v_valid v key) as [u|] eqn:V; [|reflexivity]. exfalso. vb H.
  destruct (inv_obj _ _ _ I _ _ (inv_valid _ _ _ I _ _ V)) as (c & HO & _).
  unfold hobj in HO. unfold deref in E. destruct (nth_error (v_heap v) u) as [r|]; [|discriminate]. inversion E; subst y. cbn in HO. inversion HO as [HO']. rewrite HO' in H.
  vb H. destruct y as ((x & i0) & c0). vb H. apply (IH T) in H; auto. congruence.
Qed.
Lemma as_chain_missing : forall fuel T v key ch chk inv, Inv sig_ok T v ->
  as_chain fuel (v_heap v) (v_valid v) key ch chk inv = VRet None -> v_valid v key = None.
Proof.
  induction fuel as [|fuel IH]; intros T v key ch chk inv I H; cbn [as_chain] in H; destruct ch as [a|]; try discriminate; destruct chk; try discriminate.
  destruct (v_valid v key) as [u|] eqn:V; [|reflexivity]. exfalso. vb H.
  destruct (inv_obj _ _ _ I _ _ (inv_valid _ _ _ I _ _ V)) as (c & HO & _).
  unfold hobj in HO. unfold deref in E. destruct (nth_error (v_heap v) u) as [r|]; [|discriminate]. inversion E; subst y. cbn in HO. inversion HO as [HO']. rewrite HO' in H.
  destruct (validate_as_list (a0 :: chk) (c_asns c)) as ((x & i0) & c0). vb H. apply (IH T) in H; auto. congruence.
Qed.

Definition why (k : ekind) (c : cert) (v : validator) : Prop :=
  match k with
  | EExpiration => ~ in_window c (v_time v)
  | EConflict => v_objects v (c_ski c) <> None
  | EParent => (forall p, ~ issued sig_ok v p c) \/ exists p, issued sig_ok v p c /\ v_valid v (c_aki p) = None
  | ERevocation => revoked_in v c /\ exists p, issued sig_ok v p c
  | EResource => exists p, issued sig_ok v p c /\ ~ revoked_in v c /\ in_window c (v_time v) /\ (c_ips c <> [] \/ c_asns c <> [])
  | _ => False
  end.

Lemma add_cert_why : forall T c t v k, Inv sig_ok T v -> add_cert_error sig_ok c t v = VRet (Some k) -> why k c v.
Proof.
  intros T c t v k I H. unfold add_cert_error in H. unfold kin at 1 in H. destruct (v_objects v (c_ski c)) eqn:O.
  { inversion H; subst. cbn. congruence. }
  unfold cert_error in H. destruct (time_ok c (v_time v)) eqn:TO; cbn [negb] in H.
  2:{ inversion H; subst. cbn. unfold in_window. unfold time_ok in TO. clear - TO. lia. }
  assert (W : in_window c (v_time v)) by (unfold in_window; unfold time_ok in TO; clear - TO; lia).
  destruct t; [discriminate|]. destruct (v_valid v (c_aki c)) as [pa|] eqn:PV.
  2:{ inversion H; subst. cbn. left. intros p ((a & V & _) & E & _). congruence. }
  destruct (inv_obj _ _ _ I _ _ (inv_valid _ _ _ I _ _ PV)) as (pc & HO & KS).
  unfold hobj in HO. unfold deref in H. destruct (nth_error (v_heap v) pa) as [pr|] eqn:N; [|discriminate]. cbn [vbind] in H.
  cbn in HO. inversion HO as [HO']. rewrite HO' in H.
  assert (ONE : forall p, issued sig_ok v p c -> p = pc).
  { intros p ((a & V & (r & N1 & N2)) & E & _). assert (a = pa) by congruence. subst a. congruence. }
  destruct (sig_ok pc c) eqn:SG; cbn [negb] in H.
  2:{ inversion H; subst. cbn. left. intros p IS. assert (X := ONE _ IS). subst p. destruct IS as (_ & _ & S2). congruence. }
  assert (IS : issued sig_ok v pc c).
  { split; [|auto]. exists pa. split; [congruence|]. exists pr. auto. }
  unfold kin in H. destruct (v_revoked v (serial_key (c_aki c) (c_serial c))) eqn:RV.
  { inversion H; subst. cbn. split; [unfold revoked_in; congruence|eauto]. }
  vb H. destruct y as ((x & inv) & chk). vb H. destruct y as [inv'|].
  2:{ inversion H; subst. cbn. right. exists pc. split; auto. eapply ip_chain_missing; eauto. }
  destruct (validate_as_list (c_asns c) (c_asns pc)) as ((z & ainv) & achk) eqn:AL. vb H. destruct y as [ainv'|].
  2:{ inversion H; subst. cbn. right. exists pc. split; auto. eapply as_chain_missing; eauto. }
  assert (k = EResource) by (destruct inv', ainv'; inversion H; reflexivity). subst k. cbn.
  exists pc. split; auto. split; [unfold revoked_in; congruence|]. split; auto.
  destruct (c_ips c) as [|i0 il] eqn:CI; [|left; discriminate]. destruct (c_asns c) as [|s0 sl] eqn:CA; [|right; discriminate].
  exfalso. cbn in E. inversion E; subst. cbn in AL. inversion AL; subst.
  assert (inv' = []). { clear - E0. destruct (length (v_heap v)); cbn [ip_chain] in E0; destruct (r_parent pr); inversion E0; reflexivity. }
  assert (ainv' = []). { clear - E1. destruct (length (v_heap v)); cbn [as_chain] in E1; destruct (r_parent pr); inversion E1; reflexivity. }
  subst. discriminate.
Qed.

Lemma why_upd : forall k c v a f, meta f -> why k c (upd a f v) -> why k c v.
Proof.
  intros k c v a f MF H. assert (SI := hsim_upd_meta (v_heap v) a f MF).
  assert (VC : forall p, valid_cert (upd a f v) p <-> valid_cert v p).
  { intros p. unfold valid_cert. split; intros (b & V & CA); exists b; (split; [exact V|]).
    - apply hobj_cert_at. apply hobj_cert_at in CA. cbn in CA. destruct SI as (_ & SI). destruct (SI b) as (HO & _). congruence.
    - apply hobj_cert_at. apply hobj_cert_at in CA. cbn. destruct SI as (_ & SI). destruct (SI b) as (HO & _). congruence. }
  assert (IS : forall p, issued sig_ok (upd a f v) p c <-> issued sig_ok v p c) by (intros p; unfold issued; rewrite VC; tauto).
  destruct k; try exact H; cbn in H |- *.
  - destruct H as [H|(p & H1 & H2)]; [left; intros p Y; apply (H p); now apply IS|right; exists p; split; [now apply IS|exact H2]].
  - destruct H as (H & p & Y). split; [exact H|]. exists p. now apply IS.
  - destruct H as (p & H & Y). exists p. split; [now apply IS|exact Y].
Qed.

Lemma extract_bad : forall l, extract_path_mft l = None -> exists n h, In (n, h) l /\ bad_path n = true.
Proof.
  induction l as [|(n & h) l IH]; cbn [extract_path_mft]; [discriminate|]. destruct (bad_path n) eqn:B; [intros _; exists n, h; split; [left; auto|auto]|].
  destruct (extract_path_mft l); [discriminate|]. intros _. destruct (IH eq_refl) as (n' & h' & A1 & A2). exists n', h'. split; [right; auto|auto].
Qed.

Lemma error_reason : forall ops now v f d k, run ops (new_validator now) = VRet v -> resource_error f d v = VRet (Some k) ->
  reason sig_ok dec_tal dec_cert dec_roa dec_mft dec_crl k f d v.
Proof.
  intros ops now v f d k R H. destruct (inv_run _ _ _ _ _ _ _ _ _ _ _ R) as (I & _).
  assert (FROM : forall c, cert_in dec_cert dec_roa dec_mft f d c -> why k c v -> reason sig_ok dec_tal dec_cert dec_roa dec_mft dec_crl k f d v).
  { intros c CI W. destruct k; cbn in W; try contradiction; cbn; try (exists c; auto; fail).
    destruct W as (p & W). exists c, p. auto. }
  unfold ErrReport.resource_error in H. destruct (f_type f) eqn:FT; try (inversion H; subst; cbn; rewrite FT; exact Logic.I).
  - destruct (dec_cert d) as [c|] eqn:D; [|inversion H; subst; cbn; rewrite FT; auto].
    vb H. destruct y as [v1|].
    + apply (FROM c); [left; auto|]. unfold check_tal in E. destruct (f_parent f) as [p|]; [|inversion E; subst v1; eapply add_cert_why; eauto].
      destruct (is_tal (f_type p)); [|inversion E; subst v1; eapply add_cert_why; eauto].
      destruct (v_tals v (f_path f)) as [ta|]; [|inversion E; subst v1; eapply add_cert_why; eauto].
      vb E. destruct (r_obj y); try discriminate. vb E. destruct y0; inversion E; subst v1.
      apply (why_upd _ _ _ ta with_talvalid meta_tal). eapply add_cert_why; eauto. apply inv_upd_meta; [exact meta_tal|exact I].
    + inversion H; subst. cbn. rewrite FT. right. unfold check_tal in E. destruct (f_parent f) as [p|]; [|discriminate].
      exists p. split; auto. destruct (f_type p); cbn in E; try discriminate; reflexivity.
  - destruct (dec_mft d) as [m|] eqn:D; [|inversion H; subst; cbn; rewrite FT; auto].
    unfold add_mft_error in H. destruct (extract_path_mft (mft_files m)) as [fs|] eqn:EX.
    2:{ inversion H; subst. cbn. rewrite FT. right. destruct (extract_bad _ EX) as (n & h & A1 & A2). exists m, n, h. split; auto. split; auto.
        unfold bad_path in A2. apply orb_prop in A2. destruct A2 as [A2|A2]; apply contains_spec in A2; destruct A2 as (a & b & ->); exists a, b; auto. }
    vb H. destruct (mft_inner m) eqn:MI; cbn [negb] in H.
    + inversion H; subst y. apply (FROM (mft_cert m)); [right; right; eauto|]. eapply add_cert_why; eauto.
    + inversion H; subst. cbn. right. exists m. auto.
  - destruct (dec_roa d) as [r|] eqn:D; [|inversion H; subst; cbn; rewrite FT; auto].
    unfold add_roa_error in H. vb H. destruct (negb (validate_entries (roa_entries r)) || negb (roa_inner r)) eqn:B.
    + inversion H; subst. cbn. left. exists r. split; auto. split; auto. destruct (roa_inner r); auto. right. destruct (validate_entries (roa_entries r)); auto.
    + inversion H; subst y. apply (FROM (roa_cert r)); [right; left; eauto|]. eapply add_cert_why; eauto.
  - destruct (dec_crl d) as [l|] eqn:D; [|inversion H; subst; cbn; rewrite FT; auto].
    vb H. destruct y as (v1 & (b & a1)). vb H. vb H. destruct (beq y y0) eqn:B; inversion H; subst k. cbn. rewrite FT. right.
    unfold grandparent_path in E0. destruct (f_parent f) as [p|]; [|discriminate]. destruct (f_parent p) as [g|] eqn:PP; [|discriminate].
    inversion E0; subst y. exists l, g. split; auto. split; [eauto|]. intros a r file VO N RF EP.
    assert (X : y0 = f_path file); [|subst y0; rewrite (proj2 (beq_eq _ _) (eq_sym EP)) in B; discriminate].
    assert (LT : (a < length (v_heap v))%nat) by (apply nth_error_Some; congruence).
    clear B H EP E0.
    match goal with X : add_crl crl_sig_ok l v = _ |- _ => apply add_crl_cases in X; destruct X as (-> & [(_ & ->)|(_ & p1 & pc & v3 & VO1 & _ & _ & _ & RL & ->)]) end.
    + unfold parent_file_path, deref in E1. cbn in E1. rewrite nth_error_app2 in E1 by lia. rewrite Nat.sub_diag in E1. cbn in E1. rewrite VO in E1.
      rewrite nth_error_app1 in E1 by exact LT. rewrite N in E1. cbn in E1. rewrite RF in E1. congruence.
    + apply revoke_loop_heap in RL. cbn in RL. assert (p1 = a) by congruence. subst p1.
      unfold parent_file_path, deref in E1. cbn in E1. rewrite !nth_heap_upd, RL in E1.
      rewrite nth_error_app2 in E1 by lia. rewrite Nat.sub_diag in E1. cbn [nth_error option_map] in E1.
      assert (NE : Nat.eqb (length (v_heap v)) a = false) by (apply Nat.eqb_neq; lia). rewrite NE in E1. cbn [vbind r_parent new_res] in E1. rewrite VO in E1.
      rewrite nth_heap_upd, Nat.eqb_refl, nth_error_app1, N in E1 by exact LT. cbn in E1. rewrite RF in E1. congruence.
  - destruct (dec_tal d) eqn:D; inversion H; subst. cbn. rewrite FT. exact D.
Qed.

Lemma error_type : forall ops now v f d v' valid ps a err, run ops (new_validator now) = VRet v ->
  add_resource sig_ok crl_sig_ok dec_tal dec_cert dec_roa dec_mft dec_crl hex_sha1 f d v = VRet (v', (valid, ps, a, err)) ->
  (err = false /\ resource_error f d v = VRet None) \/
  (err = true /\ valid = false /\ exists k, resource_error f d v = VRet (Some k) /\
     reason sig_ok dec_tal dec_cert dec_roa dec_mft dec_crl k f d v).
Proof.
  intros ops now v f d v' valid ps a err R H.
  destruct (resource_err _ _ _ _ _ _ _ _ _ _ _ _ _ _ _ _ H) as (e & E1 & E2 & E3 & _).
  destruct e as [k|]; [right|left]; split; auto. split.
  - destruct valid; auto. destruct (E3 eq_refl). discriminate.
  - exists k. split; auto. eapply error_reason; eauto.
Qed.
End Reports.

Lemma reports_of_files : forall sig_ok crl_sig_ok dec_tal dec_cert dec_roa dec_mft dec_crl hex_sha1 disk synced sha256 clock
  strict_manifests strict_hash add_invalid fuel s s' rs,
  explore_rep sig_ok crl_sig_ok dec_tal dec_cert dec_roa dec_mft dec_crl hex_sha1 disk synced sha256 clock strict_manifests strict_hash
    add_invalid fuel s = VRet (s', rs) ->
  exists l, explored_with (iter_rep sig_ok crl_sig_ok dec_tal dec_cert dec_roa dec_mft dec_crl hex_sha1 disk synced sha256 clock
      strict_manifests strict_hash add_invalid) s l s' /\ m_queue s' = [] /\ rs = concat (map snd l) /\
    explores (explore_iter sig_ok crl_sig_ok dec_tal dec_cert dec_roa dec_mft dec_crl hex_sha1 disk synced sha256 clock
      strict_manifests strict_hash add_invalid) s (map fst l) s'.
Proof.
  intros sig_ok crl_sig_ok dec_tal dec_cert dec_roa dec_mft dec_crl hex_sha1 disk synced sha256 clock sm sh ai fuel s s' rs H.
  destruct (explore_with sig_ok crl_sig_ok dec_tal dec_cert dec_roa dec_mft dec_crl hex_sha1 disk synced sha256 clock sm sh ai _ _ _ _ H) as (l & A & B & C).
  exists l. repeat split; auto. now apply with_explores.
Qed.
