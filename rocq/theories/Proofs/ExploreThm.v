(** What exploration guarantees. *)
From Coq Require Import Lia.
From Verif.Model Require Import Base NetIP CertRes Roa Str Ber Tal Validator Explore.
From Verif.Spec Require Import Trust Discovery.
From Verif.Proofs Require Import StrProofs HeapProofs Invalidate BerProofs ValidatorInv ValidatorRun ValidatorMono ValidatorFacts
  ValidatorMisc ValidatorPanic ExploreFacts ExploreInv.

Section Explore.
Variable sig_ok : cert -> cert -> bool.
Variable crl_sig_ok : cert -> crl -> bool.
Variable dec_tal : bytes -> option tal.
Variable dec_cert : bytes -> option cert.
Variable dec_roa : bytes -> option roa.
Variable dec_mft : bytes -> option mft.
Variable dec_crl : bytes -> option crl.
Variable hex_sha1 : bytes -> bytes.
Variable disk : bytes -> option bytes.
Variable synced : bytes -> bool.
Variable sha256 : bytes -> bytes.
Variable clock : nat -> Z * Z.
Variable strict_manifests : bool.
Variable strict_hash : bool.
Variable add_invalid : bool.
Variable init : list fdesc.
Notation run := (run sig_ok crl_sig_ok dec_tal dec_cert dec_roa dec_mft dec_crl hex_sha1).
Notation add_resource := (add_resource sig_ok crl_sig_ok dec_tal dec_cert dec_roa dec_mft dec_crl hex_sha1).
Notation explore_add := (explore_add sig_ok crl_sig_ok dec_tal dec_cert dec_roa dec_mft dec_crl hex_sha1 add_invalid).
Notation explore_file := (explore_file sig_ok crl_sig_ok dec_tal dec_cert dec_roa dec_mft dec_crl hex_sha1 disk synced sha256 clock strict_manifests strict_hash add_invalid).
Notation explore_iter := (explore_iter sig_ok crl_sig_ok dec_tal dec_cert dec_roa dec_mft dec_crl hex_sha1 disk synced sha256 clock strict_manifests strict_hash add_invalid).
Notation explore := (explore sig_ok crl_sig_ok dec_tal dec_cert dec_roa dec_mft dec_crl hex_sha1 disk synced sha256 clock strict_manifests strict_hash add_invalid).
Notation holds := (holds disk).
Notation MInv := (MInv sig_ok crl_sig_ok dec_tal dec_cert dec_roa dec_mft dec_crl hex_sha1 disk sha256 clock strict_manifests strict_hash add_invalid init).
Notation minv_reach := (minv_reach sig_ok crl_sig_ok dec_tal dec_cert dec_roa dec_mft dec_crl hex_sha1 disk synced sha256 clock strict_manifests strict_hash add_invalid init).
Notation located := (located dec_tal dec_cert hex_sha1 disk).
Notation found := (found_bound dec_cert dec_mft disk).

Lemma explore_explores : forall fuel s s' n, explore fuel s = VRet (s', n) ->
  exists l, explores explore_iter s l s' /\ length l = n /\ m_queue s' = [].
Proof.
  induction fuel as [|fuel IH]; intros s s' n H; cbn [Explore.explore] in H; destruct (m_queue s) as [|f q] eqn:Q; try discriminate.
  - inversion H; subst. exists []. repeat split; auto. constructor.
  - inversion H; subst. exists []. repeat split; auto. constructor.
  - vb H. vb H. destruct y0 as (s2 & k). inversion H; subst. destruct (IH _ _ _ E0) as (l & L1 & L2 & L3).
    exists (f :: l). repeat split; auto; [|cbn; congruence]. eapply ex_step; eauto.
Qed.

(** * C13 and the link to the validator properties *)
Lemma explored_run : forall now P s, explores explore_iter (init_mgr now init) P s ->
  exists ops, run ops (new_validator now) = VRet (m_v s) /\
    forall o, In o ops -> match o with
      | DoResource f d => In f P /\ exists raw, holds f raw d /\
          (strict_hash = true -> forall h, fd_hash (f_desc f) = Some h -> sha256 raw = h)
      | DoInvalidate _ => True
      | _ => False
      end.
Proof.
  intros now P s H. destruct (minv_reach _ _ _ H) as (T & M). destruct (mi_run _ _ _ _ _ _ _ _ _ _ _ _ _ _ _ _ _ _ _ M) as (ops & F & R).
  exists ops. split; auto. intros o O. rewrite Forall_forall in F. apply F in O. destruct o; auto.
Qed.

(** Everything below a discarded certificate is not valid either. *)
Lemma below_dead : forall v k, v_valid v k = None -> forall P, ValidatorInv.Inv sig_ok (located P) v ->
  (forall c, valid_cert v c -> c_aki c = k -> located P c) /\
  forall x, valid_roa v x -> c_aki (roa_cert x) = k -> located P (roa_cert x).
Proof.
  intros v k D P I. assert (A : forall c, valid_cert v c -> c_aki c = k -> located P c).
  { intros c (a & V & (r & N & O)) K. assert (HO : hobj (v_heap v) a = Some (OCert c)) by (unfold hobj; rewrite N; cbn; now rewrite O).
    destruct (inv_chain _ _ _ I _ _ _ V HO) as (_ & [L|(pa & pc & PV & _)]); auto. congruence. }
  split; auto. intros x (b & V & (r & N & O)) K. apply A; auto.
  destruct (inv_vroa _ _ _ I _ _ V) as (x' & a & O1 & S & VA & OC & _). unfold hobj in O1. rewrite N in O1. cbn in O1.
  rewrite O in O1. inversion O1; subst x'. exists a. split; auto. now apply hobj_cert_at.
Qed.

(** The certificate and the manifest above a listed file were read. *)
Lemma listed_contents : forall now P s f p g, explores explore_iter (init_mgr now init) P s -> In f P -> listed f p g ->
  In p P /\ In g P /\ exists c m, contents disk dec_cert g c /\ contents disk dec_mft p m.
Proof.
  intros now P s f p g H FP (L1 & L2 & L3 & L4). destruct (minv_reach _ _ _ H) as (T & M).
  assert (IT : forall x, In x P -> In x T) by (intros; apply (mi_in _ _ _ _ _ _ _ _ _ _ _ _ _ _ _ _ _ _ _ M), in_or_app; auto).
  destruct (mi_par _ _ _ _ _ _ _ _ _ _ _ _ _ _ _ _ _ _ _ M _ _ (IT _ FP) L1) as (PP & RP).
  destruct (mi_par _ _ _ _ _ _ _ _ _ _ _ _ _ _ _ _ _ _ _ M _ _ (IT _ PP) L3) as (GP & RG). split; auto. split; auto.
  destruct (m_rop s (f_id g)) as [a|] eqn:RA; [|congruence]. destruct (m_rop s (f_id p)) as [b|] eqn:RB; [|congruence].
  destruct (lookup_reg _ _ _ _ _ _ _ _ _ _ _ _ _ _ _ _ _ _ _ _ _ M (IT _ GP) RA) as (raw1 & d1 & H1 & _ & _ & G1).
  destruct (lookup_reg _ _ _ _ _ _ _ _ _ _ _ _ _ _ _ _ _ _ _ _ _ M (IT _ PP) RB) as (raw2 & d2 & H2 & _ & _ & G2).
  unfold reg_ok in G1, G2. rewrite L4 in G1. rewrite L2 in G2.
  destruct G1 as (c & D1 & _). destruct G2 as (m & D2 & _). exists c, m. split; [exists raw1, d1|exists raw2, d2]; auto.
Qed.

(** * C10 *)
Lemma bad_entry : forall now P s f p g c, explores explore_iter (init_mgr now init) P s ->
  strict_manifests = true -> strict_hash = true -> In f P -> listed f p g -> contents disk dec_cert g c ->
  ~ good_copy disk sha256 f -> v_valid (m_v s) (c_ski c) = None.
Proof.
  intros now P s f p g c H SM SH FP L C NG. destruct (minv_reach _ _ _ H) as (T & M).
  assert (D := mi_bad _ _ _ _ _ _ _ _ _ _ _ _ _ _ _ _ _ _ _ M _ _ _ _ SM FP L C). apply D.
  intros (raw & d & HO & HK). apply NG. exists raw, d. split; auto.
Qed.

Lemma unreadable_entry : forall now P s f p g c, explores explore_iter (init_mgr now init) P s ->
  strict_manifests = true -> In f P -> listed f p g -> contents disk dec_cert g c ->
  ~ (exists raw d, holds f raw d) -> v_valid (m_v s) (c_ski c) = None.
Proof.
  intros now P s f p g c H SM FP L C NG. destruct (minv_reach _ _ _ H) as (T & M).
  assert (D := mi_bad _ _ _ _ _ _ _ _ _ _ _ _ _ _ _ _ _ _ _ M _ _ _ _ SM FP L C). apply D.
  intros (raw & d & HO & HK). apply NG. eauto.
Qed.

Lemma located_inv : forall now P s, explores explore_iter (init_mgr now init) P s ->
  ValidatorInv.Inv sig_ok (located P) (m_v s).
Proof. intros now P s H. destruct (minv_reach _ _ _ H) as (T & M). exact (mi_anch _ _ _ _ _ _ _ _ _ _ _ _ _ _ _ _ _ _ _ M). Qed.

Lemma reg_mft : forall now P s p m, explores explore_iter (init_mgr now init) P s ->
  In p P -> registered s p -> f_type p = TMft -> contents disk dec_mft p m ->
  exists T, MInv now T P s /\ forall name h, In (name, h) (mft_files m) ->
    exists f, In f T /\ f_parent f = Some p /\ f_desc f = mkFile [] name (determine_type name) false (Some h).
Proof.
  intros now P s p m H IP R FT (raw & d & HD & DM). destruct (minv_reach _ _ _ H) as (T & M). exists T. split; auto.
  assert (PT : In p T) by (apply (mi_in _ _ _ _ _ _ _ _ _ _ _ _ _ _ _ _ _ _ _ M), in_or_app; auto).
  destruct (m_rop s (f_id p)) as [a|] eqn:RA; [|unfold registered in R; congruence].
  destruct (lookup_reg _ _ _ _ _ _ _ _ _ _ _ _ _ _ _ _ _ _ _ _ _ M PT RA) as (raw1 & d1 & H1 & _ & _ & G).
  destruct (holds_fun _ _ _ _ _ _ HD H1) as (<- & <-). unfold reg_ok in G. rewrite FT in G.
  destruct G as (m' & D1 & _ & K). assert (m' = m) by congruence. subst m'. exact K.
Qed.

Lemma compute_entry : forall f p name, f_parent f = Some p -> f_type p = TMft -> f_path f = name ->
  compute_path f = entry_uri (fd_repo (f_desc p)) name.
Proof. intros f p name H1 H2 <-. unfold compute_path, entry_uri. now rewrite H1, H2. Qed.

Lemma complete_manifest : forall now P s p g c m, explores explore_iter (init_mgr now init) P s -> m_queue s = [] ->
  strict_manifests = true -> strict_hash = true ->
  In p P -> registered s p -> f_type p = TMft -> f_parent p = Some g -> f_type g = TCer ->
  contents disk dec_cert g c -> contents disk dec_mft p m -> v_valid (m_v s) (c_ski c) <> None ->
  forall name h, In (name, h) (mft_files m) ->
  exists f, In f P /\ compute_path f = entry_uri (fd_repo (f_desc p)) name /\
    (f_parent f = Some p -> fd_hash (f_desc f) = Some h -> exists raw d, holds f raw d /\ sha256 raw = h).
Proof.
  intros now P s p g c m H Q SM SH IP R FT FP GT CC CM V name h N.
  destruct (reg_mft _ _ _ _ _ H IP R FT CM) as (T & M & K). destruct (K _ _ N) as (f0 & F1 & F2 & F3).
  assert (S := mi_seen _ _ _ _ _ _ _ _ _ _ _ _ _ _ _ _ _ _ _ M _ F1). rewrite Q, app_nil_r in S.
  apply in_map_iff in S. destruct S as (f & E & IF). exists f. split; auto. split.
  - rewrite E. apply compute_entry; auto. unfold f_path. now rewrite F3.
  - intros FPA FH. assert (D := mi_bad _ _ _ _ _ _ _ _ _ _ _ _ _ _ _ _ _ _ _ M f p g c SM IF).
    assert (L : listed f p g) by (repeat split; auto). specialize (D L CC).
    assert (U : usable disk sha256 strict_hash f \/ ~ usable disk sha256 strict_hash f).
    { unfold usable, hash_ok, Discovery.holds. destruct (disk (compute_path f)) as [raw|] eqn:DK.
      2:{ right. intros (raw & d & (D1 & _) & _). congruence. }
      assert (DD : (exists d, if is_tal (f_type f) then d = raw else ber2der raw = BOk d) \/
                   ~ exists d, if is_tal (f_type f) then d = raw else ber2der raw = BOk d).
      { destruct (is_tal (f_type f)); [left; eauto|]. destruct (ber2der raw); [left; eauto|right; intros (? & ?); discriminate..]. }
      destruct DD as [(d & DD)|DD].
      - destruct (beq (sha256 raw) h) eqn:B.
        + apply beq_eq in B. left. exists raw, d. split; auto. intros _ h' H'. congruence.
        + right. intros (raw' & d' & (D1 & _) & D3). assert (raw' = raw) by congruence. subst raw'.
          rewrite (proj2 (beq_eq _ _) (D3 SH _ FH)) in B. discriminate.
      - right. intros (raw' & d' & (D1 & D2) & _). apply DD. assert (raw' = raw) by congruence. subst raw'. eauto. }
    destruct U as [(raw & d & HO & HK)|U]; [exists raw, d; split; auto|].
    exfalso. apply V. apply D. exact U.
Qed.

(** * C11 *)
Lemma stale_manifest : forall now P s i f p g c m, explores explore_iter (init_mgr now init) P s ->
  strict_hash = true -> nth_error P i = Some f -> listed f p g ->
  contents disk dec_cert g c -> contents disk dec_mft p m -> fd_hash (f_desc f) <> None ->
  (exists raw d, holds f raw d) -> ~ mft_current (clock (S i)) m -> v_valid (m_v s) (c_ski c) = None.
Proof.
  intros now P s i f p g c m H SH N L C CM FH (raw & d & HD) ST. destruct (minv_reach _ _ _ H) as (T & M).
  assert (D := mi_stale _ _ _ _ _ _ _ _ _ _ _ _ _ _ _ _ _ _ _ M i f p g c m raw d SH N L C CM FH HD). apply D.
  unfold mft_stale. unfold mft_current in ST. apply orb_true_iff. rewrite !Z.ltb_lt. lia.
Qed.


Lemma stale_discards : forall now P s i f p g, explores explore_iter (init_mgr now init) P s ->
  strict_manifests = true -> strict_hash = true -> nth_error P i = Some f -> listed f p g ->
  exists c m, contents disk dec_cert g c /\ contents disk dec_mft p m /\
    (~ mft_current (clock (S i)) m -> v_valid (m_v s) (c_ski c) = None).
Proof.
  intros now P s i f p g H SM SH N L. assert (FP : In f P) by (eapply nth_error_In; eauto).
  destruct (listed_contents _ _ _ _ _ _ H FP L) as (PP & GP & c & m & C1 & C2). exists c, m. split; auto. split; auto. intros ST.
  assert (FH : fd_hash (f_desc f) <> None).
  { destruct (minv_reach _ _ _ H) as (T & M). destruct L as (L1 & L2 & _).
    eapply (mi_hash _ _ _ _ _ _ _ _ _ _ _ _ _ _ _ _ _ _ _ M); eauto.
    apply (mi_in _ _ _ _ _ _ _ _ _ _ _ _ _ _ _ _ _ _ _ M), in_or_app; auto. }
  destruct (disk (compute_path f)) as [raw|] eqn:DK.
  2:{ apply (unreadable_entry now P s f p g c); auto. intros (raw & d & (D1 & _)). congruence. }
  destruct (is_tal (f_type f)) eqn:IT.
  { apply (stale_manifest now P s i f p g c m); auto. exists raw, raw. split; auto. now rewrite IT. }
  destruct (ber2der raw) as [d| | |] eqn:B.
  1:{ apply (stale_manifest now P s i f p g c m); auto. exists raw, d. split; auto. now rewrite IT. }
  all: apply (unreadable_entry now P s f p g c); auto; intros (raw' & d' & (D1 & D2)); rewrite IT in D2; congruence.
Qed.

Lemma bad_entry_discards : forall now P s f p g, explores explore_iter (init_mgr now init) P s ->
  strict_manifests = true -> strict_hash = true -> In f P -> listed f p g -> ~ good_copy disk sha256 f ->
  exists c, contents disk dec_cert g c /\ v_valid (m_v s) (c_ski c) = None /\
    (forall c', valid_cert (m_v s) c' -> c_aki c' = c_ski c -> located P c') /\
    (forall x, valid_roa (m_v s) x -> c_aki (roa_cert x) = c_ski c -> located P (roa_cert x)).
Proof.
  intros now P s f p g H SM SH FP L NG. destruct (listed_contents _ _ _ _ _ _ H FP L) as (_ & _ & c & m & C1 & C2).
  exists c. split; auto. assert (D := bad_entry _ _ _ _ _ _ _ H SM SH FP L C1 NG). split; auto.
  now apply (below_dead _ _ D), (located_inv now P s).
Qed.

(** * C12 *)
Lemma paths_once : forall now P s, explores explore_iter (init_mgr now init) P s -> NoDup (map compute_path P).
Proof.
  intros now P s H. destruct (minv_reach _ _ _ H) as (T & M).
  assert (N := mi_nodup _ _ _ _ _ _ _ _ _ _ _ _ _ _ _ _ _ _ _ M). rewrite map_app in N.
  revert N. generalize (map compute_path P), (map compute_path (m_queue s)). clear.
  induction l as [|x l IH]; intros l0 N; [constructor|]. inversion N; subst. constructor; eauto.
  intros K. apply H1, in_or_app. auto.
Qed.

(** Nothing found is left out. *)
Lemma all_found : forall now P s p raw d, explores explore_iter (init_mgr now init) P s -> m_queue s = [] ->
  In p P -> registered s p -> holds p raw d ->
  match f_type p with
  | TTal => exists t, dec_tal d = Some t /\ In (get_rsync_uri hex_sha1 t) (map compute_path P)
  | TCer => exists c, dec_cert d = Some c /\
      (add_invalid = false -> forall x, In x (extract_path_cert c) -> In (fd_path x) (map compute_path P))
  | TMft => exists m, dec_mft d = Some m /\
      forall name h, In (name, h) (mft_files m) -> In (entry_uri (fd_repo (f_desc p)) name) (map compute_path P)
  | _ => True
  end.
Proof.
  intros now P s p raw d H Q IP R HD. destruct (minv_reach _ _ _ H) as (T & M).
  assert (PT : In p T) by (apply (mi_in _ _ _ _ _ _ _ _ _ _ _ _ _ _ _ _ _ _ _ M), in_or_app; auto).
  destruct (m_rop s (f_id p)) as [a|] eqn:RA; [|unfold registered in R; congruence].
  destruct (lookup_reg _ _ _ _ _ _ _ _ _ _ _ _ _ _ _ _ _ _ _ _ _ M PT RA) as (raw1 & d1 & H1 & _ & _ & G).
  destruct (holds_fun _ _ _ _ _ _ HD H1) as (<- & <-). unfold reg_ok in G.
  assert (S := mi_seen _ _ _ _ _ _ _ _ _ _ _ _ _ _ _ _ _ _ _ M). rewrite Q, app_nil_r in S.
  destruct (f_type p) eqn:FT; auto.
  - destruct G as (c & D & _ & _ & K). exists c. split; auto. intros AI x X. destruct (K AI x X) as (f & F1 & F2 & F3).
    apply S in F1. unfold compute_path in F1 at 1. rewrite F2, FT in F1. cbn [is_mft] in F1. unfold f_path in F1. now rewrite F3 in F1.
  - destruct G as (m & D & _ & K). exists m. split; auto. intros name h N. destruct (K _ _ N) as (f & F1 & F2 & F3).
    apply S in F1. rewrite (compute_entry f p name) in F1; auto. unfold f_path. now rewrite F3.
  - destruct G as (t & D & f & F1 & F2 & F3). exists t. split; auto.
    apply S in F1. unfold compute_path in F1 at 1. rewrite F2, FT in F1. cbn [is_mft] in F1. unfold f_path in F1. now rewrite F3 in F1.
Qed.

(** ** Termination *)
Hypothesis disk_bytes : forall k raw, disk k = Some raw -> bytes_ok raw = true.

Lemma no_fuel_deref : forall h a, deref h a <> VFuel.
Proof. intros h a. unfold deref. destruct (nth_error h a); discriminate. Qed.

Lemma inval_mft_no_fuel : forall T f s, ValidatorInv.Inv sig_ok T (m_v s) -> inval_mft_parent f s <> VFuel.
Proof.
  intros T f s I. unfold inval_mft_parent. destruct (f_parent f) as [p|]; [|discriminate]. destruct (is_mft (f_type p)); [|discriminate].
  destruct (f_parent p) as [g|]; [|discriminate]. destruct (is_cer (f_type g)); [|discriminate].
  destruct (m_rop s (f_id g)) as [a|]; [|discriminate].
  destruct (deref (v_heap (m_v s)) a) as [r| |] eqn:E; cbn [vbind]; [|discriminate|now apply no_fuel_deref in E].
  destruct (r_obj r); try discriminate. destruct (inv_invalidate_total sig_ok T (m_v s) (c_ski c) I) as (v' & ->). discriminate.
Qed.

Lemma inval_crl_no_fuel : forall T f s, ValidatorInv.Inv sig_ok T (m_v s) -> inval_crl_parent f s <> VFuel.
Proof.
  intros T f s I. unfold inval_crl_parent. destruct (f_parent f) as [p|]; [|discriminate]. destruct (is_crl (f_type p)); [|discriminate].
  destruct (f_parent p) as [g|]; [|discriminate]. destruct (is_cer (f_type g)); [|discriminate].
  destruct (v_path (m_v s) (f_path g)) as [a|]; [|discriminate].
  destruct (deref (v_heap (m_v s)) a) as [r| |] eqn:E; cbn [vbind]; [|discriminate|now apply no_fuel_deref in E].
  destruct (r_obj r); try discriminate. destruct (inv_invalidate_total sig_ok T (m_v s) (c_ski c) I) as (v' & ->). discriminate.
Qed.

Lemma set_v_inv : forall T (o : bool) f s s', ValidatorInv.Inv sig_ok T (m_v s) ->
  (if o then inval_mft_parent f s else VRet s) = VRet s' ->
  ValidatorInv.Inv sig_ok (fun _ => True) (m_v s') /\ m_queue s' = m_queue s.
Proof.
  intros T [|] f s s' I H.
  - assert (I0 : ValidatorInv.Inv sig_ok (fun _ => True) (m_v s)) by (eapply inv_mono; [|exact I]; auto).
    apply (inval_mft_spec sig_ok crl_sig_ok dec_tal dec_cert dec_roa dec_mft dec_crl hex_sha1) in H; auto.
    destruct H as (E & IV & _).
    destruct (ext_invals sig_ok crl_sig_ok dec_tal dec_cert dec_roa dec_mft dec_crl hex_sha1 _ _ I0 IV) as (_ & I').
    split; auto. rewrite E. reflexivity.
  - inversion H; subst. split; auto. eapply inv_mono; [|exact I]; auto.
Qed.

Lemma explore_bad_no_fuel : forall T err f s, ValidatorInv.Inv sig_ok T (m_v s) -> explore_bad strict_manifests err f s <> VFuel.
Proof.
  intros T err f s I. unfold explore_bad.
  destruct (if strict_manifests then inval_mft_parent f s else VRet s) as [s1| |] eqn:E; cbn [vbind]; [|discriminate|].
  - destruct (set_v_inv T _ _ _ _ I E) as (I1 & _). destruct err; [|discriminate]. eapply inval_crl_no_fuel; eauto.
  - destruct strict_manifests; [|discriminate]. now apply (inval_mft_no_fuel T) in E.
Qed.

Lemma listed_stale_no_fuel : forall f s, listed_stale clock f s <> VFuel.
Proof.
  intros f s. unfold listed_stale. destruct (f_parent f) as [p|]; [|discriminate]. destruct (is_mft (f_type p)); [|discriminate].
  destruct (m_rop s (f_id p)) as [a|]; [|discriminate].
  destruct (deref (v_heap (m_v s)) a) as [r| |] eqn:E; cbn [vbind]; [|discriminate|now apply no_fuel_deref in E].
  destruct (r_obj r); discriminate.
Qed.

Lemma explore_add_no_fuel : forall T f d s, ValidatorInv.Inv sig_ok T (m_v s) -> explore_add f d s <> VFuel.
Proof.
  intros T f d s I. unfold Explore.explore_add.
  assert (I0 : ValidatorInv.Inv sig_ok (fun _ => True) (m_v s)) by (eapply inv_mono; [|exact I]; auto).
  destruct (step_good sig_ok crl_sig_ok dec_tal dec_cert dec_roa dec_mft dec_crl hex_sha1 (fun _ => True) (DoResource f d) (m_v s) I0) as (G & _);
    [auto|].
  cbn [Validator.step] in G. unfold vfst in G.
  destruct (add_resource f d (m_v s)) as [(v & ((valid & subs) & oa) & err)| |]; cbn [vbind] in *; try congruence.
  destruct (add_invalid || valid); discriminate.
Qed.

Lemma iter_no_fuel : forall now T P s, MInv now T P s -> explore_iter s <> VFuel.
Proof.
  intros now T P s M. unfold Explore.explore_iter. destruct (m_queue s) as [|f q]; [discriminate|].
  assert (I := mi_anch _ _ _ _ _ _ _ _ _ _ _ _ _ _ _ _ _ _ _ M).
  set (s0 := mkM (m_v s) q (m_explored s) (m_unique s) (m_rop s) (m_next s) (S (m_tick s))).
  assert (I0 : ValidatorInv.Inv sig_ok (located P) (m_v s0)) by exact I. clearbody s0.
  unfold Explore.explore_file, get_next_file.
  assert (GF : get_file disk synced sha256 f <> VFuel).
  { unfold get_file. destruct (disk (compute_path f)) as [raw|] eqn:DK; [|discriminate]. destruct (is_tal (f_type f)); [discriminate|].
    destruct (ber2der raw) eqn:B; try discriminate. apply ber2der_terminates in B; [contradiction|eauto]. }
  destruct (kin (m_explored s0) (compute_path f)); cbn [vbind]; [eapply explore_bad_no_fuel; eauto|].
  destruct (get_file disk synced sha256 f) as [[| |d sha]| |]; cbn [vbind]; try discriminate; try congruence;
    try (eapply explore_bad_no_fuel; eauto; fail).
  unfold check_listed. destruct (fd_hash (f_desc f)) as [h|]; cbn [vbind]; [|eapply explore_add_no_fuel; eauto].
  destruct strict_hash; cbn [vbind]; [|eapply explore_add_no_fuel; eauto].
  destruct (listed_stale clock f s0) as [st| |] eqn:LS; cbn [vbind]; [|discriminate|now apply listed_stale_no_fuel in LS].
  destruct (if st then inval_mft_parent f s0 else VRet s0) as [s1| |] eqn:E; cbn [vbind]; [|discriminate|].
  - destruct (set_v_inv _ _ _ _ _ I0 E) as (I1 & _).
    destruct (beq sha h); [eapply explore_add_no_fuel; eauto|eapply explore_bad_no_fuel; eauto].
  - destruct st; [|discriminate]. now apply (inval_mft_no_fuel (located P)) in E.
Qed.

Lemma put_files_length : forall l s, (length (m_queue (put_files l s)) <= length (m_queue s) + length l)%nat.
Proof.
  induction l as [|f l IH]; intros s; cbn [put_files length]; [lia|].
  destruct (kin _ _ || kin _ _); [specialize (IH s); lia|].
  eapply Nat.le_trans; [apply IH|]. cbn [m_queue]. rewrite app_length. cbn. lia.
Qed.

Lemma extract_cert_length : forall c, (length (extract_path_cert c) <= S (length (c_crldp c)))%nat.
Proof.
  intros c. unfold extract_path_cert. rewrite app_length, map_length. destruct (last_sia _ _ _); cbn; lia.
Qed.
Lemma extract_mft_length : forall l subs, extract_path_mft l = Some subs -> length subs = length l.
Proof.
  induction l as [|[n h] l IH]; intros subs H; cbn in H; [inversion H; auto|].
  destruct (bad_path n); [discriminate|]. destruct (extract_path_mft l); [|discriminate]. inversion H; subst. cbn. f_equal. auto.
Qed.

Lemma iter_queue : forall now T P s f q s', MInv now T P s -> m_queue s = f :: q -> explore_iter s = VRet s' ->
  (length (m_queue s') <= length q + found (compute_path f))%nat.
Proof.
  intros now T P s f q s' M Q H. unfold Explore.explore_iter in H. rewrite Q in H.
  assert (I := mi_anch _ _ _ _ _ _ _ _ _ _ _ _ _ _ _ _ _ _ _ M).
  set (s0 := mkM (m_v s) q (m_explored s) (m_unique s) (m_rop s) (m_next s) (S (m_tick s))) in *.
  assert (I0 : ValidatorInv.Inv sig_ok (fun _ => True) (m_v s0)) by (eapply inv_mono; [|exact I]; auto).
  assert (Q0 : m_queue s0 = q) by reflexivity. clearbody s0.
  assert (BAD : forall err s1 s2, ValidatorInv.Inv sig_ok (fun _ => True) (m_v s1) -> m_queue s1 = q ->
            explore_bad strict_manifests err f s1 = VRet s2 -> (length (m_queue s2) <= length q + found (compute_path f))%nat).
  { intros err s1 s2 I1 Q1 E.
    apply (explore_bad_spec sig_ok crl_sig_ok dec_tal dec_cert dec_roa dec_mft dec_crl hex_sha1 strict_manifests) in E; auto.
    destruct E as (E & _). rewrite E. cbn [set_v m_queue]. rewrite Q1. lia. }
  assert (ADD : forall d raw s1 s2, holds f raw d -> ValidatorInv.Inv sig_ok (fun _ => True) (m_v s1) -> m_queue s1 = q ->
            explore_add f d s1 = VRet s2 -> (length (m_queue s2) <= length q + found (compute_path f))%nat).
  { intros d raw s1 s2 (HD1 & HD2) I1 Q1 E. unfold Explore.explore_add in E. vb E. destruct y as (v & ((valid & subs) & oa) & err).
    assert (RES := add_resource_result _ _ _ _ _ _ _ _ _ _ _ _ _ _ _ _ _ I1 E0).
    destruct (add_invalid || valid); inversion E; subst s2; cbn [m_queue]; [|rewrite Q1; lia].
    eapply Nat.le_trans; [apply put_files_length|]. cbn [m_queue]. rewrite Q1, number_files_length.
    apply Nat.add_le_mono_l. unfold found_bound. rewrite HD1.
    destruct RES as [(_ & _ & ->)|(a & -> & RES)]; [cbn; lia|].
    destruct (f_type f) eqn:FT; cbn [is_tal] in HD2; try (subst subs; cbn; lia); try rewrite HD2.
    - destruct RES as (c & D & _ & _ & R). rewrite D. pose proof (extract_cert_length c).
      destruct R as [(-> & _)| ->]; cbn [length]; lia.
    - destruct RES as (m & D & _ & R). rewrite D. apply extract_mft_length in R. rewrite R. lia.
    - destruct RES as (t & D & _ & -> & _). cbn [length]. destruct (ber2der raw); lia. }
  unfold Explore.explore_file in H. vb H. unfold get_next_file in E.
  destruct (kin (m_explored s0) (compute_path f)); [inversion E; subst y; eapply BAD; eauto|].
  apply (get_file_spec disk synced sha256) in E. destruct y as [| |d sha]; try (eapply BAD; eauto; fail).
  destruct E as (raw & HD & ->). vb H. destruct y as (s1 & ok).
  apply (check_listed_spec sig_ok crl_sig_ok dec_tal dec_cert dec_roa dec_mft dec_crl hex_sha1) in E; auto.
  destruct E as (S1 & IV & _).
  destruct (ext_invals sig_ok crl_sig_ok dec_tal dec_cert dec_roa dec_mft dec_crl hex_sha1 _ _ I0 IV) as (_ & I1).
  assert (Q1 : m_queue s1 = q) by (rewrite S1; exact Q0).
  destruct ok; [eapply ADD; eauto|eapply BAD; eauto].
Qed.

(** Files still to be found behind the paths not yet taken. *)
Definition seen (P : list pkifile) (k : bytes) : bool := existsb (beq k) (map compute_path P).
Definition weight (keys : list bytes) (P : list pkifile) : nat :=
  list_sum (map found (filter (fun k => negb (seen P k)) keys)).

Lemma seen_app : forall P f k, seen (P ++ [f]) k = seen P k || beq k (compute_path f).
Proof. intros P f k. unfold seen. rewrite map_app, existsb_app. cbn. now rewrite orb_false_r. Qed.

Lemma weight_cons : forall k keys P, weight (k :: keys) P = ((if seen P k then 0 else found k) + weight keys P)%nat.
Proof. intros k keys P. unfold weight. cbn [filter]. destruct (seen P k); reflexivity. Qed.

Lemma weight_app : forall keys P f, (weight keys (P ++ [f]) <= weight keys P)%nat.
Proof.
  intros keys P f. induction keys as [|k keys IH]; [apply le_n|]. rewrite !weight_cons, seen_app.
  destruct (seen P k), (beq k (compute_path f)); cbn [orb]; lia.
Qed.
Lemma weight_take : forall keys P f, In (compute_path f) keys -> seen P (compute_path f) = false ->
  (weight keys (P ++ [f]) + found (compute_path f) <= weight keys P)%nat.
Proof.
  intros keys P f. induction keys as [|k keys IH]; [intros []|]. intros H S.
  pose proof (weight_app keys P f) as WA. rewrite !weight_cons, seen_app.
  destruct H as [->|H].
  - rewrite S, (proj2 (beq_eq _ _) eq_refl). cbn [orb]. lia.
  - specialize (IH H S). destruct (seen P k), (beq k (compute_path f)); cbn [orb]; lia.
Qed.

Lemma explore_ends : forall keys, (forall k, disk k <> None -> In k keys) ->
  forall now fuel T P s, MInv now T P s -> (length (m_queue s) + weight keys P <= fuel)%nat -> explore fuel s <> VFuel.
Proof.
  intros keys KE now. induction fuel as [|fuel IH]; intros T P s M W; cbn [Explore.explore]; destruct (m_queue s) as [|f q] eqn:Q;
    try discriminate; try (cbn in W; lia).
  destruct (explore_iter s) as [s1| |] eqn:E; cbn [vbind]; [|discriminate|].
  2:{ intros _. eapply iter_no_fuel; eauto. }
  assert (QL := iter_queue _ _ _ _ _ _ _ M Q E).
  assert (NS : seen P (compute_path f) = false).
  { destruct (seen P (compute_path f)) eqn:S; auto. unfold seen in S. apply existsb_exists in S. destruct S as (k & K1 & K2).
    apply beq_eq in K2. subst k.
    assert (ND := mi_nodup _ _ _ _ _ _ _ _ _ _ _ _ _ _ _ _ _ _ _ M). rewrite Q, map_app in ND. cbn [map] in ND.
    apply NoDup_remove_2 in ND. exfalso. apply ND. apply in_or_app. auto. }
  destruct (minv_step _ _ _ _ _ _ _ _ _ _ _ _ _ _ _ _ _ _ _ _ _ _ _ M Q E) as (T1 & _ & M1).
  assert (W1 : (length (m_queue s1) + weight keys (P ++ [f]) <= fuel)%nat).
  { cbn in W. destruct (disk (compute_path f)) as [raw|] eqn:DK.
    - pose proof (weight_take keys P f (KE (compute_path f) ltac:(rewrite DK; discriminate)) NS). lia.
    - pose proof (weight_app keys P f). unfold found_bound in QL. rewrite DK in QL. lia. }
  specialize (IH _ _ _ M1 W1). destruct (explore fuel s1) as [(s2 & n)| |]; cbn [vbind]; congruence.
Qed.

Lemma explore_total : forall keys now fuel, (forall k, disk k <> None -> In k keys) ->
  (length init + list_sum (map found keys) <= fuel)%nat -> explore fuel (init_mgr now init) <> VFuel.
Proof.
  intros keys now fuel KE W. destruct (minv_init sig_ok crl_sig_ok dec_tal dec_cert dec_roa dec_mft dec_crl hex_sha1 disk sha256 clock strict_manifests strict_hash add_invalid init now) as (T & M).
  apply (explore_ends keys KE now fuel T [] _ M).
  assert (L : (length (m_queue (init_mgr now init)) <= length init)%nat).
  { unfold init_mgr. eapply Nat.le_trans; [apply put_files_length|]. cbn [m_queue length]. rewrite number_files_length. lia. }
  assert (WE : weight keys [] = list_sum (map found keys)).
  { clear. induction keys as [|k keys IH]; [reflexivity|]. rewrite weight_cons, IH. reflexivity. }
  lia.
Qed.

(** * C07: anchors come from locators *)
Lemma located_tal : forall now P s c, explores explore_iter (init_mgr now init) P s ->
  (forall x, In x init -> fd_trust x = false) -> located P c -> tal_anchor dec_tal dec_cert hex_sha1 disk P c.
Proof.
  intros now P s c H U (f & F1 & F2 & F3 & F4 & [F5|(p & tf & t & n & e & F5 & F6 & F7 & F8 & F9 & F10 & F11 & F12 & F13 & F14 & F15)]).
  - destruct (minv_reach _ _ _ H) as (T & M).
    assert (FT : In f T) by (apply (mi_in _ _ _ _ _ _ _ _ _ _ _ _ _ _ _ _ _ _ _ M), in_or_app; auto).
    apply (mi_root _ _ _ _ _ _ _ _ _ _ _ _ _ _ _ _ _ _ _ M) in FT; auto. apply U in FT. congruence.
  - exists f, tf, t, n, e. repeat split; auto.
Qed.

Lemma bad_entry_below : forall now P s f p g, explores explore_iter (init_mgr now init) P s ->
  (forall x, In x init -> fd_trust x = false) ->
  strict_manifests = true -> strict_hash = true -> In f P -> listed f p g -> ~ good_copy disk sha256 f ->
  exists c, contents disk dec_cert g c /\ v_valid (m_v s) (c_ski c) = None /\
    (forall c', valid_cert (m_v s) c' -> c_aki c' = c_ski c -> tal_anchor dec_tal dec_cert hex_sha1 disk P c') /\
    (forall x, valid_roa (m_v s) x -> c_aki (roa_cert x) = c_ski c -> tal_anchor dec_tal dec_cert hex_sha1 disk P (roa_cert x)).
Proof.
  intros now P s f p g H U SM SH FP L NG. destruct (bad_entry_discards _ _ _ _ _ _ H SM SH FP L NG) as (c & C & V & A & B).
  exists c. repeat split; auto; intros; eapply located_tal; eauto.
Qed.

Lemma stale_below : forall now P s i f p g, explores explore_iter (init_mgr now init) P s ->
  (forall x, In x init -> fd_trust x = false) ->
  strict_manifests = true -> strict_hash = true -> nth_error P i = Some f -> listed f p g ->
  exists c m, contents disk dec_cert g c /\ contents disk dec_mft p m /\
    (~ mft_current (clock (S i)) m ->
     v_valid (m_v s) (c_ski c) = None /\
     (forall c', valid_cert (m_v s) c' -> c_aki c' = c_ski c -> tal_anchor dec_tal dec_cert hex_sha1 disk P c') /\
     (forall x, valid_roa (m_v s) x -> c_aki (roa_cert x) = c_ski c -> tal_anchor dec_tal dec_cert hex_sha1 disk P (roa_cert x))).
Proof.
  intros now P s i f p g H U SM SH N L. destruct (stale_discards _ _ _ _ _ _ _ H SM SH N L) as (c & m & C1 & C2 & D).
  exists c, m. split; auto. split; auto. intros ST. assert (V := D ST). split; auto.
  destruct (below_dead _ _ V P (located_inv _ _ _ H)) as (A & B). split; intros; eapply located_tal; eauto.
Qed.

Lemma chain_of_inv : forall A v, ValidatorInv.Inv sig_ok A v ->
  forall n a c, (a < n)%nat -> v_valid v (c_ski c) = Some a -> hobj (v_heap v) a = Some (OCert c) ->
  chain_to sig_ok A v c.
Proof.
  intros A v I. induction n as [|n IH]; intros a c L V H; [lia|].
  assert (VC : valid_cert v c) by (exists a; split; [exact V|now apply hobj_cert_at]).
  destruct (inv_chain _ _ _ I _ _ _ V H) as (W & [T|(pa & pc & PV & PH & S & PP)]).
  - now apply ct_anchor.
  - destruct (inv_obj _ _ _ I _ _ (inv_valid _ _ _ I _ _ PV)) as (pc' & PH' & E).
    assert (pc' = pc) by congruence. subst pc'.
    apply (ct_link _ _ _ c pc); auto.
    apply (IH pa); auto; [|now rewrite E].
    apply (inv_par _ _ _ I) in PP. lia.
Qed.

Lemma explored_chain : forall now P s, explores explore_iter (init_mgr now init) P s ->
  (forall x, In x init -> fd_trust x = false) ->
  (forall c, valid_cert (m_v s) c -> chain_to sig_ok (tal_anchor dec_tal dec_cert hex_sha1 disk P) (m_v s) c) /\
  (forall x, valid_roa (m_v s) x -> chain_to sig_ok (tal_anchor dec_tal dec_cert hex_sha1 disk P) (m_v s) (roa_cert x)).
Proof.
  intros now P s H U. assert (I := located_inv _ _ _ H).
  assert (I2 : ValidatorInv.Inv sig_ok (tal_anchor dec_tal dec_cert hex_sha1 disk P) (m_v s)).
  { eapply inv_mono; [|exact I]. intros c. now apply (located_tal now P s). }
  split.
  - intros c (a & V & CA). eapply chain_of_inv; eauto. now apply hobj_cert_at.
  - intros x (b & V & (r & N & O)). destruct (inv_vroa _ _ _ I2 _ _ V) as (x' & a & O1 & S & VA & OC & _).
    unfold hobj in O1. rewrite N in O1. cbn in O1. rewrite O in O1. inversion O1; subst x'. eapply chain_of_inv; eauto.
Qed.

Lemma last_sia_mft : forall l o n, last_sia is_sia_mft l o = Some n -> In (SiaManifest, n) l \/ o = Some n.
Proof.
  induction l as [|(k & x) l IH]; intros o n H; cbn [last_sia] in H; auto.
  apply IH in H. destruct H as [H|H]; [left; right; exact H|].
  destruct k; cbn [is_sia_mft] in H; auto. inversion H; subst. left. left. reflexivity.
Qed.

Lemma extracted : forall c x, In x (extract_path_cert c) -> fd_trust x = false /\ fd_hash x = None /\
  (fd_type x = TCrl /\ In (fd_path x) (c_crldp c) \/ fd_type x = TMft /\ In (SiaManifest, fd_path x) (c_sia c)).
Proof.
  intros c x H. unfold extract_path_cert in H. apply in_app_or in H. destruct H as [H|H].
  - apply in_map_iff in H. destruct H as (y & <- & IY). cbn [fd_trust fd_hash fd_type fd_path]. auto.
  - destruct (last_sia is_sia_mft (c_sia c) None) as [n|] eqn:L; [|contradiction].
    destruct H as [<-|[]]. cbn [fd_trust fd_hash fd_type fd_path]. apply last_sia_mft in L. destruct L; [auto 6|discriminate].
Qed.

(** * C54: what decides how an entry of a manifest is looked at *)
Lemma entry_named : forall now P s p m name h, explores explore_iter (init_mgr now init) P s -> m_queue s = [] ->
  In p P -> registered s p -> f_type p = TMft -> contents disk dec_mft p m -> In (name, h) (mft_files m) ->
  exists f, In f P /\ compute_path f = entry_uri (fd_repo (f_desc p)) name /\
    (forall f', In f' P -> compute_path f' = compute_path f -> f' = f) /\
    ((f_parent f = Some p /\ exists n' h', In (n', h') (mft_files m) /\ f_desc f = mkFile [] n' (determine_type n') false (Some h')) \/
     (f_parent f = None /\ In (f_desc f) init) \/
     exists q, f_parent f = Some q /\ q <> p /\ In q P /\ registered s q /\
       names dec_tal dec_cert dec_mft hex_sha1 disk q (f_desc f)).
Proof.
  intros now P s p m name h H Q IP R FT CM N.
  destruct (reg_mft _ _ _ _ _ H IP R FT CM) as (T & M & K). destruct (K _ _ N) as (f0 & F1 & F2 & F3).
  assert (S := mi_seen _ _ _ _ _ _ _ _ _ _ _ _ _ _ _ _ _ _ _ M _ F1). rewrite Q, app_nil_r in S.
  apply in_map_iff in S. destruct S as (f & E & IF). exists f. split; auto. split.
  { rewrite E. apply compute_entry; auto. unfold f_path. now rewrite F3. }
  assert (ND := mi_nodup _ _ _ _ _ _ _ _ _ _ _ _ _ _ _ _ _ _ _ M). rewrite Q, app_nil_r in ND. split.
  { intros f' IF' EF. clear - ND IF IF' EF. induction P as [|x P IH]; [contradiction|].
    cbn [map] in ND. apply NoDup_cons_iff in ND. destruct ND as (N1 & N2).
    destruct IF as [A|IF], IF' as [A'|IF']; [congruence|subst x; exfalso; apply N1..|auto].
    - rewrite <- EF. now apply in_map.
    - rewrite EF. now apply in_map. }
  assert (FTT : In f T) by (apply (mi_in _ _ _ _ _ _ _ _ _ _ _ _ _ _ _ _ _ _ _ M), in_or_app; auto).
  destruct (f_parent f) as [q|] eqn:FP.
  2:{ right. left. split; auto. exact (mi_root _ _ _ _ _ _ _ _ _ _ _ _ _ _ _ _ _ _ _ M _ FTT FP). }
  destruct (mi_par _ _ _ _ _ _ _ _ _ _ _ _ _ _ _ _ _ _ _ M _ _ FTT FP) as (IQ & RQ).
  assert (C := mi_child _ _ _ _ _ _ _ _ _ _ _ _ _ _ _ _ _ _ _ M _ _ FTT FP).
  destruct C as (raw & d & HD & HK & C).
  assert (DEC : q = p \/ q <> p).
  { assert (QT : In q T) by (apply (mi_in _ _ _ _ _ _ _ _ _ _ _ _ _ _ _ _ _ _ _ M), in_or_app; auto).
    assert (PT : In p T) by (apply (mi_in _ _ _ _ _ _ _ _ _ _ _ _ _ _ _ _ _ _ _ M), in_or_app; auto).
    apply In_nth_error in QT. destruct QT as (i & I1). apply In_nth_error in PT. destruct PT as (j & J1).
    destruct (Nat.eq_dec i j) as [->|NE]; [left; congruence|right; intros ->].
    assert (A1 := mi_tab _ _ _ _ _ _ _ _ _ _ _ _ _ _ _ _ _ _ _ M _ _ I1).
    assert (A2 := mi_tab _ _ _ _ _ _ _ _ _ _ _ _ _ _ _ _ _ _ _ M _ _ J1). congruence. }
  destruct DEC as [->|NE].
  - left. split; auto. rewrite FT in C. destruct C as (m' & n' & h' & D' & N' & E' & _).
    destruct CM as (raw1 & d1 & H1 & D1). destruct (holds_fun _ _ _ _ _ _ HD H1) as (<- & <-).
    assert (m' = m) by congruence. subst m'. eauto.
  - right. right. exists q. split; auto. split; auto. split; auto. split; auto. unfold names.
    destruct (f_type q) eqn:FQ; try contradiction.
    + destruct C as (c & D & X). exists c. split; [exists raw, d; auto|now apply extracted].
    + destruct C as (m' & n' & h' & D & X & Y & _). exists m', n', h'. split; [exists raw, d; auto|auto].
    + destruct C as (t & D & X). exists t. split; [exists raw, d; auto|exact X].
Qed.
End Explore.
