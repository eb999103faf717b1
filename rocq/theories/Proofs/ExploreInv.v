(** The invariant of Explore. *)
From Coq Require Import Lia.
From Verif.Model Require Import Base NetIP CertRes Roa Str Ber Tal Validator Explore.
From Verif.Spec Require Import Trust Discovery.
From Verif.Proofs Require Import StrProofs HeapProofs Invalidate ValidatorInv ValidatorRun ValidatorMono ValidatorFacts ValidatorMisc ExploreFacts.

(** * PutFiles *)
Lemma put_files_spec : forall l s, exists added,
  put_files l s = mkM (m_v s) (m_queue s ++ added) (m_explored s) (m_unique (put_files l s)) (m_rop s) (m_next s) (m_tick s) /\
  incl added l /\ NoDup (map compute_path added) /\
  (forall k, kin (m_unique (put_files l s)) k = true <-> kin (m_unique s) k = true \/ In k (map compute_path added)) /\
  (forall f, In f added -> kin (m_unique s) (compute_path f) = false /\ kin (m_explored s) (compute_path f) = false) /\
  (forall f, In f l -> kin (m_explored s) (compute_path f) = true \/ kin (m_unique (put_files l s)) (compute_path f) = true).
Proof.
  induction l as [|f l IH]; intros s; cbn [put_files].
  - exists []. rewrite app_nil_r. destruct s; cbn. repeat split; try apply incl_refl; auto; try constructor; try tauto; intros; contradiction.
  - destruct (kin (m_explored s) (compute_path f) || kin (m_unique s) (compute_path f)) eqn:K.
    + destruct (IH s) as (added & E & IN & ND & U & NEW & ALL). exists added.
      split; [exact E|]. split; [intros x X; right; auto|]. split; [exact ND|]. split; [exact U|]. split; [exact NEW|].
      intros f' [<-|H]; [|auto]. apply orb_true_iff in K. destruct K as [K|K]; [auto|].
      right. apply U. auto.
    + apply orb_false_iff in K. destruct K as [K1 K2].
      set (s1 := mkM (m_v s) (m_queue s ++ [f]) (m_explored s) (kset (m_unique s) (compute_path f) true) (m_rop s) (m_next s) (m_tick s)) in *.
      destruct (IH s1) as (added & E & IN & ND & U & NEW & ALL). exists (f :: added).
      assert (US : forall k, kin (m_unique s1) k = true <-> k = compute_path f \/ kin (m_unique s) k = true).
      { intros k. unfold s1. cbn [m_unique]. rewrite kin_kset, orb_true_iff, beq_eq. tauto. }
      split.
      { rewrite E at 1. unfold s1 at 1 2 4 5 6. cbn [m_v m_queue m_explored m_rop m_next m_tick].
        rewrite <- app_assoc. reflexivity. }
      split; [intros x [<-|X]; [left; auto|right; auto]|].
      split.
      { cbn [map]. constructor; auto. intros H. apply in_map_iff in H. destruct H as (g & G1 & G2).
        destruct (NEW _ G2) as (N & _). assert (X : kin (m_unique s1) (compute_path g) = true) by (apply US; auto). congruence. }
      split.
      { intros k. rewrite U, US. cbn [map]. cbn [In]. intuition. }
      split.
      { intros g [<-|G]; [auto|]. destruct (NEW _ G) as (N1 & N2). split; [|exact N2].
        destruct (kin (m_unique s) (compute_path g)) eqn:E1; auto.
        assert (X : kin (m_unique s1) (compute_path g) = true) by (apply US; auto). congruence. }
      intros g [<-|G]; [|auto].
      right. apply U. left. apply US. auto.
Qed.

Lemma number_files_nth : forall l n p i, nth_error (number_files n p l) i =
  match nth_error l i with Some d => Some (PFile (n + i) d p) | None => None end.
Proof.
  induction l as [|d l IH]; intros n p [|i]; cbn; auto.
  - now rewrite Nat.add_0_r.
  - rewrite IH. destruct (nth_error l i); auto. do 2 f_equal. lia.
Qed.

Lemma number_files_length : forall l n p, length (number_files n p l) = length l.
Proof. induction l; intros; cbn; auto. Qed.

Lemma number_files_in : forall l n p f, In f (number_files n p l) -> f_parent f = p /\ In (f_desc f) l.
Proof.
  induction l as [|d l IH]; intros n p f H; cbn in H; [contradiction|].
  destruct H as [<-|H]; cbn; auto. destruct (IH _ _ _ H). auto.
Qed.

Lemma number_files_has : forall l n p d, In d l -> exists f, In f (number_files n p l) /\ f_desc f = d.
Proof.
  induction l as [|x l IH]; intros n p d H; cbn in H; [contradiction|].
  destruct H as [<-|H]; [exists (PFile n x p); cbn; auto|].
  destruct (IH (S n) p d H) as (f & F & E). exists f. cbn. auto.
Qed.

(** * Runs of the validator *)
Section Explore.
Variable sig_ok : cert -> cert -> bool.
Variable crl_sig_ok : cert -> crl -> bool.
Variable dec_tal : bytes -> option tal.
Variable dec_cert : bytes -> option cert.
Variable dec_roa : bytes -> option roa.
Variable dec_mft : bytes -> option mft.
Variable dec_crl : bytes -> option crl.
Variable hex_sha1 : bytes -> bytes.
Variable disk : bytes -> option bytes.
Variable synced : bytes -> bool.
Variable sha256 : bytes -> bytes.
Variable clock : nat -> Z * Z.
Variable strict_manifests : bool.
Variable strict_hash : bool.
Variable add_invalid : bool.
Notation step := (step sig_ok crl_sig_ok dec_tal dec_cert dec_roa dec_mft dec_crl hex_sha1).
Notation run := (run sig_ok crl_sig_ok dec_tal dec_cert dec_roa dec_mft dec_crl hex_sha1).
Notation add_resource := (add_resource sig_ok crl_sig_ok dec_tal dec_cert dec_roa dec_mft dec_crl hex_sha1).
Notation get_file := (get_file disk synced sha256).
Notation explore_add := (explore_add sig_ok crl_sig_ok dec_tal dec_cert dec_roa dec_mft dec_crl hex_sha1 add_invalid).
Notation check_listed := (check_listed clock strict_hash).
Notation explore_bad := (explore_bad strict_manifests).
Notation explore_file := (explore_file sig_ok crl_sig_ok dec_tal dec_cert dec_roa dec_mft dec_crl hex_sha1 disk synced sha256 clock strict_manifests strict_hash add_invalid).
Notation explore_iter := (explore_iter sig_ok crl_sig_ok dec_tal dec_cert dec_roa dec_mft dec_crl hex_sha1 disk synced sha256 clock strict_manifests strict_hash add_invalid).
Notation explore := (explore sig_ok crl_sig_ok dec_tal dec_cert dec_roa dec_mft dec_crl hex_sha1 disk synced sha256 clock strict_manifests strict_hash add_invalid).
Notation Inv := (Inv sig_ok (fun _ => True)).
Notation holds := (holds disk).

Definition inval_op (o : op) : Prop := match o with DoInvalidate _ => True | _ => False end.

(** Only invalidations between two states of the validator. *)
Definition invals (v v' : validator) : Prop := exists ops, Forall inval_op ops /\ run ops v = VRet v'.
Lemma invals_refl : forall v, invals v v.
Proof. intros. exists []. split; [constructor|reflexivity]. Qed.
Lemma invals_trans : forall a b c, invals a b -> invals b c -> invals a c.
Proof.
  intros a b c (o1 & F1 & R1) (o2 & F2 & R2). exists (o1 ++ o2). split; [now apply Forall_app|].
  rewrite run_app, R1. exact R2.
Qed.
Lemma invals_one : forall k v v', invalidate k v = VRet v' -> invals v v'.
Proof. intros k v v' H. exists [DoInvalidate k]. split; [repeat constructor|]. cbn [Validator.run Validator.step]. rewrite H. reflexivity. Qed.
Lemma invals_same : forall v v', invals v v' -> v_tals v' = v_tals v.
Proof.
  intros v v' (ops & F & R). revert v F R. induction ops as [|o ops IH]; intros v F R.
  - inversion R; subst. reflexivity.
  - cbn [Validator.run] in R. vb R. inversion F; subst. apply IH in R; auto. rewrite R.
    destruct o; try contradiction. cbn [Validator.step] in E. apply invalidate_spec in E. destruct E as (D & -> & _). apply drop_keys_tals.
Qed.
Lemma inv_any : forall ops now v, run ops (new_validator now) = VRet v -> Inv v.
Proof. intros. eapply inv_mono; [|apply (inv_run sig_ok crl_sig_ok dec_tal dec_cert dec_roa dec_mft dec_crl hex_sha1) in H; apply H]. auto. Qed.
Lemma ext_any : forall ops v v', Inv v -> run ops v = VRet v' -> ext v v' /\ Inv v'.
Proof. intros. eapply (ext_run sig_ok crl_sig_ok dec_tal dec_cert dec_roa dec_mft dec_crl hex_sha1 (fun _ => True)); eauto. Qed.
Lemma ext_invals : forall v v', Inv v -> invals v v' -> ext v v' /\ Inv v'.
Proof. intros v v' I (ops & _ & R). eapply ext_any; eauto. Qed.

(** The object with this key is known and not valid. *)
Definition dead (v : validator) (k : bytes) : Prop := v_objects v k <> None /\ v_valid v k = None.
Lemma dead_ext : forall v v' k, ext v v' -> dead v k -> dead v' k.
Proof.
  intros v v' k X (A & B). unfold dead. destruct (v_objects v k) as [a|] eqn:E; [|congruence].
  rewrite (ext_objects _ _ X _ _ E). split; [discriminate|]. eapply ext_valid; eauto.
Qed.
Lemma dead_invalidate : forall v v' k, invalidate k v = VRet v' -> v_objects v k <> None -> dead v' k.
Proof.
  intros v v' k H O. apply invalidate_spec in H. destruct H as (D & -> & B). split.
  - now rewrite drop_keys_objects.
  - apply drop_keys_valid. apply B. constructor.
Qed.

(** * InvalidateManifestParent *)
Lemma inval_mft_spec : forall f s s', inval_mft_parent f s = VRet s' ->
  s' = set_v (m_v s') s /\ invals (m_v s) (m_v s') /\
  forall p g a c, listed f p g -> m_rop s (f_id g) = Some a -> hobj (v_heap (m_v s)) a = Some (OCert c) ->
    v_objects (m_v s) (c_ski c) <> None -> dead (m_v s') (c_ski c).
Proof.
  intros f s s' H. unfold inval_mft_parent in H.
  assert (SAME : forall x : mgr, x = set_v (m_v x) x) by (intros []; reflexivity).
  destruct (f_parent f) as [p|] eqn:FP.
  2:{ inversion H; subst. split; [apply SAME|]. split; [apply invals_refl|]. intros p g a c (L & _). congruence. }
  destruct (is_mft (f_type p)) eqn:PM.
  2:{ inversion H; subst. split; [apply SAME|]. split; [apply invals_refl|]. intros p' g a c (L & M & _).
      assert (p' = p) by congruence. subst. rewrite M in PM. discriminate. }
  destruct (f_parent p) as [g|] eqn:PG.
  2:{ inversion H; subst. split; [apply SAME|]. split; [apply invals_refl|]. intros p' g a c (L & M & G & _). congruence. }
  destruct (is_cer (f_type g)) eqn:GC.
  2:{ inversion H; subst. split; [apply SAME|]. split; [apply invals_refl|]. intros p' g' a c (L & M & G & C).
      assert (p' = p) by congruence. subst. assert (g' = g) by congruence. subst. rewrite C in GC. discriminate. }
  destruct (m_rop s (f_id g)) as [a|] eqn:RG.
  2:{ inversion H; subst. split; [apply SAME|]. split; [apply invals_refl|]. intros p' g' a c (L & M & G & C) R.
      assert (p' = p) by congruence. subst. assert (g' = g) by congruence. subst. congruence. }
  vb H. rename y into r. assert (HO := deref_hobj _ _ _ E). destruct HO as (HO & _).
  destruct (r_obj r) as [c| | | |] eqn:RO;
    try (inversion H; subst; split; [apply SAME|]; split; [apply invals_refl|];
         intros p' g' a' c' (L & M & G & C) R OB; assert (p' = p) by congruence; subst; assert (g' = g) by congruence; subst; congruence).
  vb H. inversion H; subst. cbn [set_v m_v]. split; [reflexivity|]. split; [eapply invals_one; eauto|].
  intros p' g' a' c' (L & M & G & C) R OB K. assert (p' = p) by congruence. subst. assert (g' = g) by congruence. subst.
  assert (c' = c) by congruence. subst. eapply dead_invalidate; eauto.
Qed.

Lemma inval_crl_spec : forall f s s', inval_crl_parent f s = VRet s' ->
  s' = set_v (m_v s') s /\ invals (m_v s) (m_v s').
Proof.
  intros f s s' H. unfold inval_crl_parent in H.
  assert (D : VRet s = VRet s' -> s' = set_v (m_v s') s /\ invals (m_v s) (m_v s')).
  { intros X. inversion X; subst. split; [destruct s'; reflexivity|apply invals_refl]. }
  destruct (f_parent f) as [p|]; auto. destruct (is_crl (f_type p)); auto.
  destruct (f_parent p) as [g|]; auto. destruct (is_cer (f_type g)); auto.
  destruct (v_path (m_v s) (f_path g)) as [a|]; auto.
  vb H. destruct (r_obj y); auto. vb H. inversion H; subst. cbn. split; auto. eapply invals_one; eauto.
Qed.

Lemma explore_bad_spec : forall err f s s', Inv (m_v s) -> explore_bad err f s = VRet s' ->
  s' = set_v (m_v s') s /\ invals (m_v s) (m_v s') /\
  forall p g a c, strict_manifests = true -> listed f p g -> m_rop s (f_id g) = Some a ->
    hobj (v_heap (m_v s)) a = Some (OCert c) ->
    v_objects (m_v s) (c_ski c) <> None -> dead (m_v s') (c_ski c).
Proof.
  intros err f s s' I H. unfold Explore.explore_bad in H. vb H. rename y into s1.
  assert (A : s1 = set_v (m_v s1) s /\ invals (m_v s) (m_v s1) /\
    forall p g a c, strict_manifests = true -> listed f p g -> m_rop s (f_id g) = Some a ->
    hobj (v_heap (m_v s)) a = Some (OCert c) ->
    v_objects (m_v s) (c_ski c) <> None -> dead (m_v s1) (c_ski c)).
  { destruct strict_manifests.
    - apply inval_mft_spec in E. destruct E as (E1 & E2 & E3). eauto 10.
    - inversion E; subst. split; [destruct s1; reflexivity|]. split; [apply invals_refl|]. discriminate. }
  destruct A as (A1 & A2 & A3).
  assert (B : s' = set_v (m_v s') s1 /\ invals (m_v s1) (m_v s')).
  { destruct err; [now apply inval_crl_spec in H|]. inversion H; subst s'. split; [destruct s1; reflexivity|apply invals_refl]. }
  destruct B as (B1 & B2). split; [rewrite B1, A1; reflexivity|]. split; [eapply invals_trans; eauto|].
  intros. destruct (ext_invals _ _ I A2) as (_ & I1). destruct (ext_invals _ _ I1 B2) as (X & _).
  eapply dead_ext; eauto.
Qed.

Lemma listed_stale_spec : forall f s b, listed_stale clock f s = VRet b ->
  forall p g a m, listed f p g -> m_rop s (f_id p) = Some a -> hobj (v_heap (m_v s)) a = Some (OMft m) ->
  b = mft_stale (clock (m_tick s)) m.
Proof.
  intros f s b H p g a m (L1 & L2 & _) R HO. unfold listed_stale in H. rewrite L1, L2, R in H. cbn [is_mft] in H.
  destruct (deref_of_hobj _ _ _ HO) as (r & D & RO). rewrite D in H. cbn [vbind] in H. rewrite RO in H. congruence.
Qed.

Lemma check_listed_spec : forall f sha s s1 ok, check_listed f sha s = VRet (s1, ok) ->
  s1 = set_v (m_v s1) s /\ invals (m_v s) (m_v s1) /\
  ok = match fd_hash (f_desc f) with Some h => if strict_hash then beq sha h else true | None => true end /\
  forall p g a c b m, strict_hash = true -> fd_hash (f_desc f) <> None -> listed f p g ->
    m_rop s (f_id g) = Some a -> hobj (v_heap (m_v s)) a = Some (OCert c) ->
    m_rop s (f_id p) = Some b -> hobj (v_heap (m_v s)) b = Some (OMft m) ->
    v_objects (m_v s) (c_ski c) <> None ->
    mft_stale (clock (m_tick s)) m = true -> dead (m_v s1) (c_ski c).
Proof.
  intros f sha s s1 ok H. unfold Explore.check_listed in H.
  destruct (fd_hash (f_desc f)) as [h|].
  2:{ inversion H; subst. split; [destruct s1; reflexivity|]. split; [apply invals_refl|]. split; auto. congruence. }
  destruct strict_hash.
  2:{ inversion H; subst. split; [destruct s1; reflexivity|]. split; [apply invals_refl|]. split; auto. congruence. }
  vb H. vb H. inversion H; subst. destruct y.
  - apply inval_mft_spec in E0. destruct E0 as (E1 & E2 & E3). split; auto. split; auto. split; auto.
    intros; eauto.
  - inversion E0; subst s1. split; [destruct s; reflexivity|]. split; [apply invals_refl|]. split; auto.
    intros p g a c b m _ _ L R1 O1 R2 O2 K ST. assert (X := listed_stale_spec _ _ _ E p g b m L R2 O2). congruence.
Qed.

(** * The invariant *)
Definition hash_ok (f : pkifile) (raw : bytes) : Prop :=
  strict_hash = true -> forall h, fd_hash (f_desc f) = Some h -> sha256 raw = h.
Definition usable (f : pkifile) : Prop := exists raw d, holds f raw d /\ hash_ok f raw.
Definition op_from (P : list pkifile) (o : op) : Prop :=
  match o with
  | DoResource f d => In f P /\ exists raw, holds f raw d /\ hash_ok f raw
  | DoInvalidate _ => True
  | _ => False
  end.
(** What a registered file holds. *)
Definition reg_ok (T : list pkifile) (v : validator) (f : pkifile) (d : bytes) (a : addr) : Prop :=
  match f_type f with
  | TCer => exists c, dec_cert d = Some c /\ hobj (v_heap v) a = Some (OCert c) /\ v_objects v (c_ski c) <> None /\
      (add_invalid = false -> forall x, In x (extract_path_cert c) ->
         exists f', In f' T /\ f_parent f' = Some f /\ f_desc f' = x)
  | TMft => exists m, dec_mft d = Some m /\ hobj (v_heap v) a = Some (OMft m) /\
      forall name h, In (name, h) (mft_files m) ->
        exists f', In f' T /\ f_parent f' = Some f /\ f_desc f' = mkFile [] name (determine_type name) false (Some h)
  | TTal => exists t, dec_tal d = Some t /\
      exists f', In f' T /\ f_parent f' = Some f /\ f_desc f' = mkFile [] (get_rsync_uri hex_sha1 t) TCer true None
  | _ => True
  end.

(** The certificate was read from a file taken as a trust anchor: an initial
    file, or one named by a trust anchor locator with the same key. *)
Definition located (P : list pkifile) (c : cert) : Prop :=
  exists f, In f P /\ f_type f = TCer /\ fd_trust (f_desc f) = true /\ contents disk dec_cert f c /\
    (f_parent f = None \/
     exists p tf t n e, f_parent f = Some p /\ In p P /\ f_type p = TTal /\ In tf P /\ f_type tf = TTal /\
       contents disk dec_tal tf t /\ get_rsync_uri hex_sha1 t = f_path f /\
       t_alg t = alg_rsa /\ c_alg c = alg_rsa /\ t_key t = RSAPtr n e /\ c_key c = RSAPtr n e).

Lemma located_mono : forall P P' c, incl P P' -> located P c -> located P' c.
Proof.
  intros P P' c S (f & H1 & H2 & H3 & H4 & [H5|(p & tf & t & n & e & K)]); exists f; repeat split; auto.
  right. exists p, tf, t, n, e. intuition.
Qed.

(** How the file [f] was found in the file [p]. *)
Definition child (p f : pkifile) : Prop :=
  exists raw d, holds p raw d /\ hash_ok p raw /\
  match f_type p with
  | TTal => exists t, dec_tal d = Some t /\ f_desc f = mkFile [] (get_rsync_uri hex_sha1 t) TCer true None
  | TCer => exists c, dec_cert d = Some c /\ In (f_desc f) (extract_path_cert c)
  | TMft => exists m name h, dec_mft d = Some m /\ In (name, h) (mft_files m) /\
      f_desc f = mkFile [] name (determine_type name) false (Some h) /\ (add_invalid = false -> mft_inner m = true)
  | _ => False
  end.

(** The files exploration starts from. *)
Variable init : list fdesc.

Record MInv (now : Z) (T P : list pkifile) (s : mgr) : Prop := {
  mi_run : exists ops, Forall (op_from P) ops /\ run ops (new_validator now) = VRet (m_v s);
  mi_next : m_next s = length T;
  mi_tick : m_tick s = length P;
  mi_tab : forall i f, nth_error T i = Some f -> f_id f = i;
  mi_par : forall f p, In f T -> f_parent f = Some p -> In p P /\ m_rop s (f_id p) <> None;
  mi_in : incl (P ++ m_queue s) T;
  mi_nodup : NoDup (map compute_path (P ++ m_queue s));
  mi_unique : forall k, kin (m_unique s) k = true <-> In k (map compute_path (P ++ m_queue s));
  mi_expl : forall k, kin (m_explored s) k = true -> In k (map compute_path P);
  mi_seen : forall f, In f T -> In (compute_path f) (map compute_path (P ++ m_queue s));
  mi_rop : forall i a, m_rop s i = Some a -> exists f raw d, nth_error T i = Some f /\ In f P /\
    holds f raw d /\ hash_ok f raw /\ reg_ok T (m_v s) f d a;
  mi_bad : forall f p g c, strict_manifests = true -> In f P -> listed f p g -> contents disk dec_cert g c ->
    ~ usable f -> dead (m_v s) (c_ski c);
  mi_stale : forall i f p g c m raw d, strict_hash = true -> nth_error P i = Some f -> listed f p g ->
    contents disk dec_cert g c -> contents disk dec_mft p m -> fd_hash (f_desc f) <> None -> holds f raw d ->
    mft_stale (clock (S i)) m = true -> dead (m_v s) (c_ski c);
  mi_trust : forall f, In f T -> fd_trust (f_desc f) = true -> f_parent f = None \/
    exists p, f_parent f = Some p /\ f_type p = TTal /\ f_type f = TCer /\ v_tals (m_v s) (f_path f) <> None;
  mi_tals : forall k a, v_tals (m_v s) k = Some a -> exists p t, In p P /\ f_type p = TTal /\
    contents disk dec_tal p t /\ hobj (v_heap (m_v s)) a = Some (OTal t) /\ get_rsync_uri hex_sha1 t = k;
  mi_hash : forall f p, In f T -> f_parent f = Some p -> f_type p = TMft -> fd_hash (f_desc f) <> None;
  mi_root : forall f, In f T -> f_parent f = None -> In (f_desc f) init;
  mi_anch : ValidatorInv.Inv sig_ok (located P) (m_v s);
  mi_child : forall f p, In f T -> f_parent f = Some p -> child p f }.

Lemma op_from_mono : forall P P' o, incl P P' -> op_from P o -> op_from P' o.
Proof. intros P P' [] S H; cbn in *; auto. destruct H; auto. Qed.

Lemma holds_fun : forall f r1 d1 r2 d2, holds f r1 d1 -> holds f r2 d2 -> r1 = r2 /\ d1 = d2.
Proof.
  intros f r1 d1 r2 d2 (A1 & B1) (A2 & B2). assert (r1 = r2) by congruence. subst. split; auto.
  destruct (is_tal (f_type f)); congruence.
Qed.

Lemma get_file_spec : forall f r, get_file f = VRet r ->
  match r with
  | SData d sha => exists raw, holds f raw d /\ sha = sha256 raw
  | _ => ~ exists raw d, holds f raw d
  end.
Proof.
  intros f r H. unfold Explore.get_file in H. unfold Discovery.holds.
  destruct (disk (compute_path f)) as [raw|].
  - destruct (is_tal (f_type f)).
    + inversion H; subst. eauto.
    + destruct (ber2der raw) as [d| | |] eqn:B; try discriminate.
      * inversion H; subst. eauto.
      * inversion H; subst. destruct (synced (f_path f)); intros (r1 & d1 & D & E); congruence.
  - inversion H; subst. destruct (synced (f_path f)); intros (r1 & d1 & D & E); congruence.
Qed.

(** The table of registered files only depends on what extension keeps. *)
Lemma reg_ok_ext : forall T T' v v' f d a, ext v v' -> incl T T' -> reg_ok T v f d a -> reg_ok T' v' f d a.
Proof.
  intros T T' v v' f d a X IT H. unfold reg_ok in *. destruct (f_type f); auto.
  - destruct H as (c & A & B & C & D). exists c. split; auto. split; [now apply (ext_obj _ _ X)|]. split.
    + destruct (v_objects v (c_ski c)) eqn:E; [|congruence]. rewrite (ext_objects _ _ X _ _ E). discriminate.
    + intros AI x N. destruct (D AI _ N) as (f' & F1 & F2). eauto.
  - destruct H as (m & A & B & C). exists m. split; auto. split; [now apply (ext_obj _ _ X)|].
    intros name h N. destruct (C _ _ N) as (f' & F1 & F2). eauto.
  - destruct H as (t & A & f' & F1 & F2). exists t. split; auto. exists f'. auto.
Qed.

(** v_tals changes only when a TAL is added. *)
Lemma tals_add_resource : forall f d v v' res, add_resource f d v = VRet (v', res) ->
  f_type f <> TTal -> v_tals v' = v_tals v.
Proof.
  assert (AC : forall c tr v v' res, add_cert sig_ok c tr v = VRet (v', res) -> v_tals v' = v_tals v).
  { intros c tr v v' (((va & ps) & a) & er) H. destruct (add_cert_cases _ _ _ _ _ _ _ _ _ H) as (-> & [C|C]).
    - destruct C as (_ & _ & _ & _ & ->). reflexivity.
    - destruct C as (_ & _ & ok & _ & _ & _ & ->). unfold store_cert.
      destruct (v_objects v (c_aki c)), va; reflexivity. }
  intros f d v v' res H NT. unfold Validator.add_resource in H.
  destruct (f_type f) eqn:FT; try (inversion H; subst; reflexivity); try congruence.
  - destruct (dec_cert d) as [c|]; [|inversion H; subst; auto]. vb H.
    destruct y as [v1|]; [|inversion H; subst; auto]. vb H. destruct y as (v2 & ((va & ps) & a) & er).
    inversion H; subst. cbn. rewrite (AC _ _ _ _ _ E0).
    unfold check_tal in E. destruct (f_parent f) as [p|]; [|congruence]. destruct (is_tal (f_type p)); [|congruence].
    destruct (v_tals v (f_path f)); [|congruence]. vb E. destruct (r_obj y); try discriminate. vb E.
    destruct y0; inversion E; subst. reflexivity.
  - destruct (dec_mft d) as [m|]; [|inversion H; subst; auto]. vb H. destruct y as (v1 & ((va & ps) & oa) & er).
    assert (X : v_tals v1 = v_tals v).
    { unfold add_mft in E. destruct (extract_path_mft (mft_files m)); [|congruence]. vb E.
      destruct y as (v2 & ((va2 & ps2) & a2) & er2). inversion E; subst.
      rewrite <- (AC _ _ _ _ _ E0). destruct (va2 && mft_inner m); reflexivity. }
    destruct oa; inversion H; subst; exact X.
  - destruct (dec_roa d) as [m|]; [|inversion H; subst; auto]. vb H. destruct y as (v1 & (va & a) & er).
    assert (X : v_tals v1 = v_tals v).
    { unfold add_roa in E. vb E. destruct y as (v2 & ((va2 & ps2) & a2) & er2). inversion E; subst.
      rewrite <- (AC _ _ _ _ _ E0). destruct (va2 && validate_entries (roa_entries m) && roa_inner m); reflexivity. }
    inversion H; subst; exact X.
  - destruct (dec_crl d) as [l|]; [|inversion H; subst; auto]. vb H. destruct y as (v1 & va & a).
    assert (X : v_tals v1 = v_tals v).
    { unfold add_crl in E. vb E. destruct y as (v2 & va2). inversion E; subst. cbn [put_crl v_tals].
      destruct (kin (v_valid v) (crl_aki (crl_exts l) [])); [|inversion E0; subst; reflexivity].
      destruct (v_objects v (crl_aki (crl_exts l) [])); [|discriminate]. vb E0. destruct (r_obj y); try (inversion E0; subst; reflexivity).
      destruct (crl_sig_ok c l); [|inversion E0; subst; reflexivity]. vb E0. inversion E0; subst. cbn.
      clear - E2. remember (put_validcrl _ _ _) as w eqn:W.
      assert (W' : v_tals w = v_tals v) by (subst; reflexivity). clear W. revert w W' E2.
      generalize (crl_serials l). induction l0 as [|z l0 IH]; intros w W R; cbn [revoke_loop] in R.
      - inversion R; subst. exact W.
      - vb R. apply IH in R; auto. cbn. rewrite <- W. clear R.
        destruct (v_serial w (serial_key (crl_aki (crl_exts l) []) z)); [|congruence]. vb E.
        destruct (r_obj y1); try discriminate. destruct (c_serial c =? z); [|congruence].
        apply invalidate_spec in E. destruct E as (D & -> & _). apply drop_keys_tals. }
    vb H. vb H. destruct (beq y y0); inversion H; subst; exact X.
Qed.

Lemma tals_add_tal : forall f d v v' valid subs oa err, add_resource f d v = VRet (v', (valid, subs, oa, err)) ->
  f_type f = TTal -> v_tals v' = v_tals v \/
  exists t, dec_tal d = Some t /\ v_tals v' = kset (v_tals v) (get_rsync_uri hex_sha1 t) (length (v_heap v)) /\
    hobj (v_heap v') (length (v_heap v)) = Some (OTal t).
Proof.
  intros f d v v' valid subs oa err H FT. unfold Validator.add_resource in H. rewrite FT in H.
  destruct (dec_tal d) as [t|]; [|inversion H; subst; auto]. cbn [add_tal] in H. inversion H; subst. right. exists t.
  split; auto. split; auto. cbn [put_tal upd alloc set_heap v_heap v_tals]. rewrite hobj_upd_meta by apply meta_file.
  now rewrite hobj_alloc, Nat.eqb_refl.
Qed.

Lemma minv_inv : forall now T P s, MInv now T P s -> Inv (m_v s).
Proof. intros now T P s M. destruct (mi_run _ _ _ _ M) as (ops & _ & R). eapply inv_any; eauto. Qed.

Lemma minv_nth : forall now T P s f, MInv now T P s -> In f T -> nth_error T (f_id f) = Some f.
Proof.
  intros now T P s f M H. apply In_nth_error in H. destruct H as (i & H). rewrite (mi_tab _ _ _ _ M _ _ H). exact H.
Qed.

Lemma lookup_reg : forall now T P s x a, MInv now T P s -> In x T -> m_rop s (f_id x) = Some a ->
  exists raw d, holds x raw d /\ In x P /\ hash_ok x raw /\ reg_ok T (m_v s) x d a.
Proof.
  intros now T P s x a M IT R. destruct (mi_rop _ _ _ _ M _ _ R) as (f & raw & d & N & IP & H & HO & RO).
  rewrite (minv_nth _ _ _ _ _ M IT) in N. inversion N; subst. eauto 10.
Qed.

(** The CA and the manifest above a listed file. *)
Lemma listed_reg : forall now T P s f p g c, MInv now T P s -> In f T -> listed f p g -> contents disk dec_cert g c ->
  exists a b, m_rop s (f_id g) = Some a /\ hobj (v_heap (m_v s)) a = Some (OCert c) /\ v_objects (m_v s) (c_ski c) <> None /\
    m_rop s (f_id p) = Some b /\ forall m, contents disk dec_mft p m -> hobj (v_heap (m_v s)) b = Some (OMft m).
Proof.
  intros now T P s f p g c M IT (L1 & L2 & L3 & L4) (raw & d & H & D).
  destruct (mi_par _ _ _ _ M _ _ IT L1) as (PP & RP).
  assert (PT : In p T) by (apply (mi_in _ _ _ _ M), in_or_app; auto).
  destruct (mi_par _ _ _ _ M _ _ PT L3) as (GP & RG).
  assert (GT : In g T) by (apply (mi_in _ _ _ _ M), in_or_app; auto).
  destruct (m_rop s (f_id g)) as [a|] eqn:RA; [|congruence]. destruct (m_rop s (f_id p)) as [b|] eqn:RB; [|congruence].
  destruct (lookup_reg _ _ _ _ _ _ M GT RA) as (raw1 & d1 & H1 & _ & _ & G1).
  destruct (lookup_reg _ _ _ _ _ _ M PT RB) as (raw2 & d2 & H2 & _ & _ & G2).
  destruct (holds_fun _ _ _ _ _ H H1) as (<- & <-). unfold reg_ok in G1. rewrite L4 in G1.
  destruct G1 as (c' & C1 & C2 & C3 & _). assert (c' = c) by congruence. subst c'.
  exists a, b. split; auto. split; auto. split; auto. split; auto. intros m (raw3 & d3 & H3 & D3).
  destruct (holds_fun _ _ _ _ _ H2 H3) as (<- & <-). unfold reg_ok in G2. rewrite L2 in G2.
  destruct G2 as (m' & M1 & M2 & _). congruence.
Qed.

Lemma minv_pop : forall now T P s f q v', MInv now T P s -> m_queue s = f :: q -> invals (m_v s) v' ->
  (forall p g c, strict_manifests = true -> listed f p g -> contents disk dec_cert g c -> ~ usable f -> dead v' (c_ski c)) ->
  (forall p g c m raw d, strict_hash = true -> listed f p g -> contents disk dec_cert g c -> contents disk dec_mft p m ->
     fd_hash (f_desc f) <> None -> holds f raw d -> mft_stale (clock (S (length P))) m = true -> dead v' (c_ski c)) ->
  MInv now T (P ++ [f]) (mkM v' q (m_explored s) (m_unique s) (m_rop s) (m_next s) (S (m_tick s))).
Proof.
  intros now T P s f q v' M Q IV B S. assert (I := minv_inv _ _ _ _ M). destruct (ext_invals _ _ I IV) as (X & I').
  assert (TA := invals_same _ _ IV).
  destruct M as [(ops & F & R) M2 M3 M4 M5 M6 M7 M8 M9 M10 M11 M12 M13 M14 M15 M18 M17 M16 M19]. rewrite Q in *.
  assert (QE : (P ++ [f]) ++ q = P ++ f :: q) by (rewrite <- app_assoc; reflexivity).
  assert (PI : incl P (P ++ [f])) by (intros x H; apply in_or_app; auto).
  constructor; cbn [m_v m_queue m_explored m_unique m_rop m_next m_tick]; rewrite ?QE; auto.
  - destruct IV as (o2 & F2 & R2). exists (ops ++ o2). split.
    + apply Forall_app. split; [eapply Forall_impl; [|exact F]; intros; eapply op_from_mono; eauto|].
      eapply Forall_impl; [|exact F2]. intros [] H; try contradiction. exact H.
    + rewrite run_app, R. exact R2.
  - rewrite app_length. cbn. lia.
  - intros f' p H1 H2. destruct (M5 _ _ H1 H2). auto.
  - intros k H. apply M9 in H. rewrite map_app. apply in_or_app. auto.
  - intros i a H. destruct (M11 _ _ H) as (f' & raw & d & H1 & H2 & H3 & H4 & H5). exists f', raw, d. repeat split; auto; try apply H3.
    eapply reg_ok_ext with (T := T); [exact X|apply incl_refl|exact H5].
  - intros f' p g c H1 H2 H3 H4 H5. apply in_app_or in H2. destruct H2 as [H2|[<-|[]]]; [|eauto].
    eapply dead_ext; eauto.
  - intros i f' p g c m raw d H1 H2 H3 H4 H5 H6 H7 H8. destruct (Nat.ltb_spec i (length P)).
    + rewrite nth_error_app1 in H2 by auto. eapply dead_ext; [exact X|]. eapply M13; eauto.
    + rewrite nth_error_app2 in H2 by auto. destruct (i - length P)%nat eqn:E; [|destruct n; discriminate].
      cbn in H2. inversion H2; subst f'. assert (i = length P) by lia. subst i. eapply S; eauto.
  - intros f' H1 H2. rewrite TA. auto.
  - intros k a H. rewrite TA in H. destruct (M15 _ _ H) as (p & t & H1 & H2 & H3 & H4 & H5). exists p, t. repeat split; auto.
    now apply (ext_obj _ _ X).
  - apply inv_mono with (T := located P); [intros c; now apply located_mono|].
    destruct IV as (o2 & F2 & R2). clear - M16 F2 R2. revert M16 F2 R2. generalize (m_v s).
    induction o2 as [|o o2 IH]; intros v M16 F2 R2; cbn [Validator.run] in R2; [inversion R2; subst; auto|].
    vb R2. inversion F2; subst. apply (IH y); auto. destruct o; try contradiction.
    cbn [Validator.step] in E. eapply inv_invalidate; eauto.
Qed.

Lemma extract_mft_in : forall l subs, extract_path_mft l = Some subs ->
  (forall name h, In (name, h) l -> In (mkFile [] name (determine_type name) false (Some h)) subs) /\
  (forall d, In d subs -> fd_trust d = false /\ fd_hash d <> None).
Proof.
  induction l as [|[n h] l IH]; intros subs H; cbn in H.
  - inversion H; subst. split; intros; contradiction.
  - destruct (bad_path n); [discriminate|]. destruct (extract_path_mft l) as [r|] eqn:E; [|discriminate].
    inversion H; subst. destruct (IH r eq_refl) as (A & B). split.
    + intros name h' [X|X]; [inversion X; subst; left; auto|right; auto].
    + intros d [<-|X]; auto. split; [reflexivity|discriminate].
Qed.

Lemma extract_mft_from : forall l subs d, extract_path_mft l = Some subs -> In d subs ->
  exists name h, In (name, h) l /\ d = mkFile [] name (determine_type name) false (Some h).
Proof.
  induction l as [|[n h] l IH]; intros subs d H I; cbn in H.
  - inversion H; subst. contradiction.
  - destruct (bad_path n); [discriminate|]. destruct (extract_path_mft l) as [r|] eqn:E; [|discriminate].
    inversion H; subst. destruct I as [<-|I]; [exists n, h; split; [left|]; auto|].
    destruct (IH r d eq_refl I) as (n' & h' & A & B). exists n', h'. split; [right|]; auto.
Qed.

Lemma add_mft_inner : forall f d v v' subs oa err, f_type f = TMft -> add_resource f d v = VRet (v', (true, subs, oa, err)) ->
  exists m, dec_mft d = Some m /\ mft_inner m = true.
Proof.
  intros f d v v' subs oa err FT H. unfold Validator.add_resource in H. rewrite FT in H.
  destruct (dec_mft d) as [m|]; [|discriminate]. exists m. split; auto. vb H. destruct y as (v1 & ((va & ps) & oa') & er).
  unfold add_mft in E. destruct (extract_path_mft (mft_files m)).
  - vb E. destruct y as (v2 & ((va2 & ps2) & a2) & er2).
    assert (V : va = true) by (destruct oa'; inversion H; reflexivity). subst va.
    assert (V2 : va2 && mft_inner m = true) by (inversion E; reflexivity). now apply andb_true_iff in V2.
  - inversion E; subst. discriminate.
Qed.

Lemma extract_cert_trust : forall c d, In d (extract_path_cert c) -> fd_trust d = false.
Proof.
  intros c d H. unfold extract_path_cert in H. apply in_app_or in H. destruct H as [H|H].
  - apply in_map_iff in H. destruct H as (x & <- & _). reflexivity.
  - destruct (last_sia is_sia_mft (c_sia c) None); [|contradiction]. destruct H as [<-|[]]. reflexivity.
Qed.

Lemma minv_add : forall now T P s f raw d s', MInv now T P s -> In f P -> holds f raw d -> hash_ok f raw ->
  m_rop s (f_id f) = None -> explore_add f d s = VRet s' ->
  exists T', incl T T' /\ MInv now T' P s'.
Proof.
  intros now T P s f raw d s' M FP HD HK RN H. assert (I := minv_inv _ _ _ _ M).
  assert (FT : In f T) by (apply (mi_in _ _ _ _ M), in_or_app; auto).
  assert (FN := minv_nth _ _ _ _ _ M FT).
  unfold Explore.explore_add in H. vb H. destruct y as (v & ((valid & subs) & oa) & err).
  assert (R1 : run [DoResource f d] (m_v s) = VRet v).
  { cbn [Validator.run Validator.step]. unfold vfst. rewrite E. reflexivity. }
  destruct (ext_any _ _ _ I R1) as (X & I').
  assert (RES := add_resource_result _ _ _ _ _ _ _ _ _ _ _ _ _ _ _ _ _ I E).
  assert (TAL : (forall k, v_tals (m_v s) k <> None -> v_tals v k <> None) /\
    forall k a, v_tals v k = Some a -> v_tals (m_v s) k = Some a \/
      exists t, f_type f = TTal /\ contents disk dec_tal f t /\ hobj (v_heap v) a = Some (OTal t) /\ get_rsync_uri hex_sha1 t = k).
  { destruct (f_type f) eqn:FTY;
      try (rewrite (tals_add_resource _ _ _ _ _ E) by congruence; auto; fail).
    destruct (tals_add_tal _ _ _ _ _ _ _ _ E FTY) as [->|(t & D & V & O)]; auto. split.
    - intros k K. rewrite V. unfold kset. destruct (beq k _); [discriminate|auto].
    - intros k a K. rewrite V in K. apply kset_some in K. destruct K as [[-> ->]|[_ K]]; auto.
      right. exists t. split; auto. split; auto. exists raw, d. auto. }
  destruct TAL as (TAL1 & TAL2).
  assert (RUN : exists ops, Forall (op_from P) ops /\ run ops (new_validator now) = VRet v).
  { destruct (mi_run _ _ _ _ M) as (ops & F & R). exists (ops ++ [DoResource f d]). split.
    - apply Forall_app. split; auto. repeat constructor; auto. exists raw. auto.
    - rewrite run_app, R. exact R1. }
  destruct M as [_ M2 M3 M4 M5 M6 M7 M8 M9 M10 M11 M12 M13 M14 M15 M18 M17 M16 M19].
  assert (TR0 : forall f', In f' T -> fd_trust (f_desc f') = true -> f_parent f' = None \/
    exists p, f_parent f' = Some p /\ f_type p = TTal /\ f_type f' = TCer /\ v_tals v (f_path f') <> None).
  { intros f' H1 H2. destruct (M14 _ H1 H2) as [K|(p & K1 & K2 & K3 & K4)]; [auto|]. right. exists p. auto 10. }
  assert (TA0 : forall k a, v_tals v k = Some a -> exists p t, In p P /\ f_type p = TTal /\
    contents disk dec_tal p t /\ hobj (v_heap v) a = Some (OTal t) /\ get_rsync_uri hex_sha1 t = k).
  { intros k a K. destruct (TAL2 _ _ K) as [K'|(t & K1 & K2 & K3 & K4)].
    - destruct (M15 _ _ K') as (p & t & H1 & H2 & H3 & H4 & H5). exists p, t. repeat split; auto. now apply (ext_obj _ _ X).
    - exists f, t. auto 10. }
  assert (AN0 : ValidatorInv.Inv sig_ok (located P) v).
  { destruct (fd_trust (f_desc f)) eqn:TRU; [destruct (f_type f) eqn:FTY|].
    2: destruct (M14 _ FT TRU) as [PN|(p & PA & PT & _ & VT)].
    3:{ destruct (v_tals (m_v s) (f_path f)) as [ta|] eqn:VTE; [|congruence].
        destruct (M15 _ _ VTE) as (tf & t & T1 & T2 & T3 & T4 & T5). unfold hobj in T4.
        destruct (nth_error (v_heap (m_v s)) ta) as [r|] eqn:NR; [|discriminate]. inversion T4 as [T4'].
        destruct (tal_binding _ _ _ _ _ _ _ _ _ _ _ _ _ _ _ _ _ _ _ _ FTY PA PT VTE NR T4' E)
          as [(c & n & e & DC & A1 & A2 & A3 & A4)|(-> & _)]; [|exact M16].
        eapply inv_add_resource; [exact M16| |exact E]. intros c' _ DC' _. assert (c' = c) by congruence. subst c'.
        exists f. repeat split; auto; [exists raw, d; auto|]. right. exists p, tf, t, n, e.
        destruct (M5 _ _ FT PA). repeat split; auto. }
    2:{ eapply inv_add_resource; [exact M16| |exact E]. intros c' _ DC' _. exists f. repeat split; auto. exists raw, d. auto. }
    all: eapply inv_add_resource; [exact M16| |exact E]; intros; congruence. }
  assert (EX0 : forall k, kin (kset (m_explored s) (compute_path f) true) k = true -> In k (map compute_path P)).
  { intros k K. rewrite kin_kset, orb_true_iff, beq_eq in K. destruct K as [->|K]; [|auto]. now apply in_map. }
  destruct (add_invalid || valid) eqn:AV.
  2:{ inversion H; subst s'. exists T. split; [apply incl_refl|].
      constructor; cbn [m_v m_queue m_explored m_unique m_rop m_next m_tick]; auto.
      - intros i a K. destruct (M11 _ _ K) as (f' & raw' & d' & H1 & H2 & H3 & H4 & H5). exists f', raw', d'. repeat split; auto; try apply H3.
        eapply reg_ok_ext with (T := T); [exact X|apply incl_refl|exact H5].
      - intros. eapply dead_ext; eauto.
      - intros. eapply dead_ext; [exact X|]. eapply M13; eauto. }
  set (s1 := mkM v (m_queue s) (kset (m_explored s) (compute_path f) true) (m_unique s) (m_rop s) (m_next s) (m_tick s)) in *.
  set (new := number_files (m_next s) (Some f) subs) in *.
  destruct (put_files_spec new s1) as (added & PE & PIN & PND & PU & PNEW & PALL).
  rewrite PE in H. cbn [m_v m_queue m_explored m_unique m_rop m_next m_tick] in H. inversion H; subst s'. clear H.
  unfold s1 in PE, PU, PNEW, PALL. cbn [m_v m_queue m_explored m_unique m_rop m_next m_tick] in PE, PU, PNEW, PALL. fold s1 in PE, PU, PNEW, PALL.
  set (U := m_unique (put_files new s1)) in *. clearbody U.
  unfold s1. cbn [m_v m_queue m_explored m_unique m_rop m_next m_tick]. clear PE s1.
  exists (T ++ new). split; [intros x K; apply in_or_app; auto|].
  assert (NEWP : forall f', In f' new -> f_parent f' = Some f /\ In (f_desc f') subs) by (intros f' K; now apply number_files_in in K).
  assert (SUBOA : subs <> [] -> oa <> None).
  { intros K. destruct RES as [(_ & _ & ->)|(a & -> & _)]; [congruence|discriminate]. }
  assert (IDS : forall f', In f' P -> m_rop s (f_id f') <> None -> f_id f' <> f_id f) by (intros f' _ K E'; rewrite E' in K; congruence).
  constructor; cbn [m_v m_queue m_explored m_unique m_rop m_next m_tick]; rewrite ?app_assoc; auto.
  - rewrite app_length. unfold new. rewrite number_files_length. lia.
  - intros i f' K. destruct (Nat.ltb_spec i (length T)).
    + rewrite nth_error_app1 in K by auto. auto.
    + rewrite nth_error_app2 in K by auto. unfold new in K. rewrite number_files_nth in K.
      destruct (nth_error subs (i - length T)); [|discriminate]. inversion K; subst. cbn. lia.
  - intros f' p K1 K2. apply in_app_or in K1. destruct K1 as [K1|K1].
    + destruct (M5 _ _ K1 K2) as (A & B). split; auto. destruct (Nat.eqb_spec (f_id p) (f_id f)); [|auto].
      rewrite e in B. congruence.
    + destruct (NEWP _ K1) as (A & B). assert (p = f) by congruence. subst p. split; auto. rewrite Nat.eqb_refl.
      apply SUBOA. destruct subs; [contradiction|discriminate].
  - intros x K. apply in_app_or in K. apply in_or_app. destruct K as [K|K]; [left; auto|right; auto].
  - rewrite map_app. clear - M7 PND PNEW M8.
    assert (DIS : forall k, In k (map compute_path (P ++ m_queue s)) -> ~ In k (map compute_path added)).
    { intros k K1 K2. apply M8 in K1. apply in_map_iff in K2. destruct K2 as (g & <- & G). destruct (PNEW _ G). congruence. }
    revert M7 DIS. generalize (map compute_path (P ++ m_queue s)). induction l as [|x l IH]; intros ND DIS; cbn; auto.
    inversion ND; subst. constructor.
    + intros K. apply in_app_or in K. destruct K as [K|K]; [auto|]. apply (DIS x); [left; auto|auto].
    + apply IH; auto. intros k K. apply DIS. right; auto.
  - intros k. rewrite PU, M8. rewrite (map_app compute_path (P ++ m_queue s) added), in_app_iff. tauto.
  - intros f' K. apply in_app_or in K. destruct K as [K|K].
    + rewrite map_app. apply in_or_app. left. auto.
    + destruct (PALL _ K) as [Z|Z].
      * apply EX0 in Z. rewrite !map_app. rewrite !in_app_iff. auto.
      * apply PU in Z. rewrite M8 in Z. rewrite (map_app compute_path (P ++ m_queue s) added), in_app_iff. tauto.
  - intros i a K. destruct (Nat.eqb_spec i (f_id f)).
    + subst i. exists f, raw, d. split; [rewrite nth_error_app1; auto; apply nth_error_Some; congruence|].
      repeat split; auto; try apply HD. destruct RES as [(-> & _)|(a' & -> & RES)]; [discriminate|].
      inversion K; subst a'. unfold reg_ok. destruct (f_type f); auto.
      * destruct RES as (c & C1 & C2 & C3 & C4). exists c. repeat split; auto. intros AI x N.
        destruct C4 as [(-> & ->)| ->]; [rewrite AI in AV; discriminate|].
        destruct (number_files_has _ (m_next s) (Some f) _ N) as (f' & F1 & F2). exists f'. split; [apply in_or_app; auto|].
        destruct (NEWP _ F1). auto.
      * destruct RES as (m & C1 & C2 & C3). exists m. repeat split; auto. intros name h N.
        destruct (extract_mft_in _ _ C3) as (Y & _). apply Y in N.
        destruct (number_files_has subs (m_next s) (Some f) _ N) as (f' & F1 & F2). exists f'. split; [apply in_or_app; auto|].
        destruct (NEWP _ F1). auto.
      * destruct RES as (t & D & O & S & V). exists t. split; auto.
        destruct (number_files_has subs (m_next s) (Some f) (mkFile [] (get_rsync_uri hex_sha1 t) TCer true None)) as (f' & F1 & F2);
          [rewrite S; left; auto|].
        exists f'. split; [apply in_or_app; auto|]. destruct (NEWP _ F1). auto.
    + destruct (M11 _ _ K) as (f' & raw' & d' & H1 & H2 & H3 & H4 & H5). exists f', raw', d'.
      split; [rewrite nth_error_app1; auto; apply nth_error_Some; congruence|].
      repeat split; auto; try apply H3.
      eapply reg_ok_ext with (T := T); [exact X|intros x Y; apply in_or_app; auto|exact H5].
  - intros. eapply dead_ext; eauto.
  - intros. eapply dead_ext; [exact X|]. eapply M13; eauto.
  - intros f' K1 K2. apply in_app_or in K1. destruct K1 as [K1|K1]; [auto|].
    destruct (NEWP _ K1) as (A & B). right. exists f. split; auto.
    destruct RES as [(_ & _ & ->)|(a & -> & RES)]; [contradiction|].
    destruct (f_type f) eqn:FTY; try (subst subs; contradiction).
    + destruct RES as (c & _ & _ & _ & [(-> & _)| ->]); [contradiction|]. apply extract_cert_trust in B. congruence.
    + destruct RES as (m & _ & _ & Y). destruct (extract_mft_in _ _ Y) as (_ & Z). destruct (Z _ B). congruence.
    + destruct RES as (t & D & O & -> & V). destruct B as [B|[]]. unfold f_type, f_path. rewrite <- B. cbn. repeat split; auto. congruence.
  - intros f' p K1 K2 K3. apply in_app_or in K1. destruct K1 as [K1|K1]; [eauto|]. destruct (NEWP _ K1) as (A & B).
    assert (p = f) by congruence. subst p.
    destruct RES as [(_ & _ & ->)|(a & -> & RES)]; [contradiction|]. rewrite K3 in RES.
    destruct RES as (m & _ & _ & Y). destruct (extract_mft_in _ _ Y) as (_ & Z). destruct (Z _ B). auto.
  - intros f' K1 K2. apply in_app_or in K1. destruct K1 as [K1|K1]; [auto|]. destruct (NEWP _ K1). congruence.
  - intros f' p K1 K2. apply in_app_or in K1. destruct K1 as [K1|K1]; [eauto|]. destruct (NEWP _ K1) as (A & B).
    assert (p = f) by congruence. subst p. exists raw, d. split; auto. split; auto.
    destruct RES as [(_ & _ & ->)|(a & -> & RES)]; [contradiction|].
    destruct (f_type f) eqn:FTY; try (subst subs; contradiction).
    + destruct RES as (c & DC & _ & _ & [(-> & _)| ->]); [contradiction|]. eauto.
    + destruct RES as (m & DM & _ & Y). destruct (extract_mft_from _ _ _ Y B) as (name & h & N1 & N2).
      exists m, name, h. split; auto. split; auto. split; auto. intros AI. rewrite AI in AV. cbn in AV. subst valid.
      destruct (add_mft_inner _ _ _ _ _ _ _ FTY E) as (m' & D' & IN). congruence.
    + destruct RES as (t & D & _ & -> & _). destruct B as [B|[]]. eauto.
Qed.

Theorem minv_step : forall now T P s f q s', MInv now T P s -> m_queue s = f :: q -> explore_iter s = VRet s' ->
  exists T', incl T T' /\ MInv now T' (P ++ [f]) s'.
Proof.
  intros now T P s f q s' M Q H. assert (I := minv_inv _ _ _ _ M).
  unfold Explore.explore_iter in H. rewrite Q in H.
  set (s0 := mkM (m_v s) q (m_explored s) (m_unique s) (m_rop s) (m_next s) (S (m_tick s))) in *.
  assert (FT : In f T) by (apply (mi_in _ _ _ _ M); rewrite Q; apply in_or_app; right; left; auto).
  assert (NP : ~ In (compute_path f) (map compute_path P)).
  { assert (ND := mi_nodup _ _ _ _ M). rewrite Q, map_app in ND. cbn [map] in ND.
    apply NoDup_remove_2 in ND. intros K. apply ND. apply in_or_app. auto. }
  assert (NFP : ~ In f P) by (intros K; apply NP; now apply in_map).
  assert (RN : m_rop s (f_id f) = None).
  { destruct (m_rop s (f_id f)) as [a|] eqn:R; auto. destruct (lookup_reg _ _ _ _ _ _ M FT R) as (_ & _ & _ & K & _). contradiction. }
  unfold Explore.explore_file in H. vb H. unfold get_next_file in E.
  assert (NE : kin (m_explored s0) (compute_path f) = false).
  { destruct (kin (m_explored s0) (compute_path f)) eqn:K; auto. apply (mi_expl _ _ _ _ M) in K. contradiction. }
  rewrite NE in E. apply get_file_spec in E.
  assert (TK : m_tick s0 = S (length P)) by (unfold s0; cbn; now rewrite (mi_tick _ _ _ _ M)).
  assert (BAD : forall err s1, ~ usable f \/ (exists raw d, holds f raw d) -> s1 = set_v (m_v s1) s0 -> invals (m_v s) (m_v s1) ->
    (forall p g c m raw d, strict_hash = true -> listed f p g -> contents disk dec_cert g c -> contents disk dec_mft p m ->
     fd_hash (f_desc f) <> None -> holds f raw d -> mft_stale (clock (S (length P))) m = true -> dead (m_v s1) (c_ski c)) ->
    explore_bad err f s1 = VRet s' -> exists T', incl T T' /\ MInv now T' (P ++ [f]) s').
  { intros err s1 _ S1 IV ST EB. exists T. split; [apply incl_refl|].
    destruct (ext_invals _ _ I IV) as (X1 & I1).
    apply explore_bad_spec in EB; [|exact I1]. destruct EB as (EB1 & EB2 & EB3).
    destruct (ext_invals _ _ I1 EB2) as (X2 & _).
    assert (ES : s' = mkM (m_v s') q (m_explored s) (m_unique s) (m_rop s) (m_next s) (S (m_tick s))).
    { rewrite EB1, S1. reflexivity. }
    rewrite ES. apply minv_pop; auto.
    - eapply invals_trans; eauto.
    - intros p g c SM L C _. destruct (listed_reg _ _ _ _ _ _ _ _ M FT L C) as (a & b & R1 & R2 & R3 & _).
      assert (RS : m_rop s1 (f_id g) = Some a) by (rewrite S1; exact R1).
      apply (EB3 p g a c SM L RS); [now apply (ext_obj _ _ X1)|].
      destruct (v_objects (m_v s) (c_ski c)) eqn:K; [|congruence]. rewrite (ext_objects _ _ X1 _ _ K). discriminate.
    - intros. eapply dead_ext; eauto. }
  destruct y as [| |d sha].
  - eapply (BAD true s0); eauto.
    + left. intros (raw & d & K & _). apply E. eauto.
    + apply invals_refl.
    + intros p g c m raw d _ _ _ _ _ K. exfalso. apply E. eauto.
  - eapply (BAD false s0); eauto.
    + left. intros (raw & d & K & _). apply E. eauto.
    + apply invals_refl.
    + intros p g c m raw d _ _ _ _ _ K. exfalso. apply E. eauto.
  - destruct E as (raw & HD & ->). vb H. destruct y as (s1 & ok). apply check_listed_spec in E.
    destruct E as (S1 & IV & OK & ST).
    assert (ST' : forall p g c m raw d, strict_hash = true -> listed f p g -> contents disk dec_cert g c -> contents disk dec_mft p m ->
     fd_hash (f_desc f) <> None -> holds f raw d -> mft_stale (clock (S (length P))) m = true -> dead (m_v s1) (c_ski c)).
    { intros p g c m raw' d' SH L C CM HN _ SC.
      destruct (listed_reg _ _ _ _ _ _ _ _ M FT L C) as (a & b & R1 & R2 & R3 & R4 & R5).
      rewrite <- TK in SC. apply (ST p g a c b m); auto. }
    destruct ok.
    + destruct (ext_invals _ _ I IV) as (X1 & I1).
      assert (HK : hash_ok f raw).
      { intros SH h Hh. rewrite Hh, SH in OK. symmetry in OK. now apply beq_eq in OK. }
      assert (M1 : MInv now T (P ++ [f]) s1).
      { rewrite S1. unfold s0, set_v. cbn [m_queue m_explored m_unique m_rop m_next m_tick]. apply minv_pop; auto.
        intros p g c _ _ _ NU. exfalso. apply NU. exists raw, d. auto. }
      eapply minv_add; [exact M1| |exact HD|exact HK| |exact H].
      * apply in_or_app. right. left. auto.
      * rewrite S1. exact RN.
    + eapply (BAD true s1); eauto.
Qed.

Lemma minv_init : forall now, exists T, MInv now T [] (init_mgr now init).
Proof.
  intros now. unfold init_mgr. set (l := init).
  set (s0 := mkM (new_validator now) [] kempty kempty (fun _ => None) (length l) 0).
  destruct (put_files_spec (number_files 0 None l) s0) as (added & PE & PIN & PND & PU & PNEW & PALL).
  exists (number_files 0 None l).
  rewrite PE. unfold s0 in PU, PNEW, PALL. cbn [m_v m_queue m_explored m_unique m_rop m_next m_tick] in PU, PNEW, PALL. fold s0 in PU, PALL.
  set (U := m_unique (put_files (number_files 0 None l) s0)) in *. clearbody U. unfold s0.
  assert (PP : forall f p, In f (number_files 0 None l) -> f_parent f = Some p -> False).
  { intros f p H K. apply number_files_in in H. destruct H. congruence. }
  constructor; cbn [m_v m_queue m_explored m_unique m_rop m_next m_tick app length]; auto.
  - exists []. split; [constructor|reflexivity].
  - now rewrite number_files_length.
  - intros i f H. rewrite number_files_nth in H. destruct (nth_error l i); inversion H; reflexivity.
  - intros f p H K. exfalso. eauto.
  - intros k. rewrite PU. split; [intros [K|K]; [discriminate|auto]|auto].
  - intros k K. discriminate.
  - intros f H. destruct (PALL _ H) as [K|K]; [discriminate|]. apply PU in K. destruct K as [K|K]; [discriminate|auto].
  - discriminate.
  - intros f p g c _ [].
  - intros [|i] f p g c m raw d _ H; discriminate.
  - intros f H _. left. now apply number_files_in in H.
  - intros k a H. discriminate.
  - intros f p H K. exfalso. eauto.
  - intros f H _. now apply number_files_in in H.
  - apply inv_new.
  - intros f p H K. exfalso. eauto.
Qed.

Lemma minv_explores : forall now T P s l s', MInv now T P s -> explores explore_iter s l s' ->
  exists T', incl T T' /\ MInv now T' (P ++ l) s'.
Proof.
  intros now T P s l s' M H. revert T P M. induction H as [s|s f q s1 l s2 Q E H IH]; intros T P M.
  - exists T. rewrite app_nil_r. split; auto. apply incl_refl.
  - destruct (minv_step _ _ _ _ _ _ _ M Q E) as (T1 & I1 & M1). destruct (IH _ _ M1) as (T2 & I2 & M2).
    exists T2. rewrite <- app_assoc in M2. split; auto. eapply incl_tran; eauto.
Qed.

Lemma minv_reach : forall now P s, explores explore_iter (init_mgr now init) P s -> exists T, MInv now T P s.
Proof.
  intros now P s H. destruct (minv_init now) as (T0 & M0).
  destruct (minv_explores _ _ _ _ _ _ M0 H) as (T & _ & M). cbn in M. eauto.
Qed.
End Explore.
