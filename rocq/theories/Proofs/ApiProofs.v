(** The manager on top of the remote interface. *)
From Coq Require Import Lia.
From Verif.Model Require Import Base Str Ber Tal Validator Explore Repo Api.
From Verif.Spec Require Import Trust Discovery RepoSpec ApiSpec.
From Verif.Proofs Require Import StrProofs BerProofs HeapProofs Invalidate ValidatorFacts ValidatorInv ValidatorRun ValidatorMisc ValidatorMono
  ExploreFacts ExploreInv ExploreThm GivenInv RepoProofs.

Lemma determine_not_tal : forall name, determine_type name <> TTal.
Proof.
  intros name. unfold determine_type. destruct (Nat.ltb 4 (length name)); [|discriminate].
  repeat match goal with |- context [if ?b then _ else _] => destruct b end; discriminate.
Qed.
Lemma extract_cert_not_tal : forall c d, In d (extract_path_cert c) -> fd_type d <> TTal.
Proof.
  intros c d H. unfold extract_path_cert in H. apply in_app_or in H. destruct H as [H|H].
  - apply in_map_iff in H. destruct H as (x & <- & _). discriminate.
  - destruct (last_sia is_sia_mft (c_sia c) None); [|contradiction]. destruct H as [<-|[]]. discriminate.
Qed.

Section Api.
Variable sig_ok : cert -> cert -> bool.
Variable crl_sig_ok : cert -> crl -> bool.
Variable dec_tal : bytes -> option tal.
Variable dec_cert : bytes -> option cert.
Variable dec_roa : bytes -> option roa.
Variable dec_mft : bytes -> option mft.
Variable dec_crl : bytes -> option crl.
Variable hex_sha1 : bytes -> bytes.
Variable read_file : bytes -> option bytes.
Variable get_resource : bytes -> option bytes.
Variable get_repository : bytes -> option stream.
Variable clock : nat -> Z * Z.
Variable strict_manifests : bool.
Variable strict_hash : bool.
Variable add_invalid : bool.
Variable not_mft : bool.
Variable init : list fdesc.
(** Any digest will do, none is looked at. *)
Variable sha256 : bytes -> bytes.
Notation run := (run sig_ok crl_sig_ok dec_tal dec_cert dec_roa dec_mft dec_crl hex_sha1).
Notation add_resource := (add_resource sig_ok crl_sig_ok dec_tal dec_cert dec_roa dec_mft dec_crl hex_sha1).
Notation add := (explore_add sig_ok crl_sig_ok dec_tal dec_cert dec_roa dec_mft dec_crl hex_sha1).
Notation disk := (served init read_file get_resource).
Notation explore_file := (explore_file sig_ok crl_sig_ok dec_tal dec_cert dec_roa dec_mft dec_crl hex_sha1 disk (fun _ => true) sha256 clock strict_manifests false add_invalid).
Notation explore_iter := (explore_iter sig_ok crl_sig_ok dec_tal dec_cert dec_roa dec_mft dec_crl hex_sha1 disk (fun _ => true) sha256 clock strict_manifests false add_invalid).
Notation explore := (explore sig_ok crl_sig_ok dec_tal dec_cert dec_roa dec_mft dec_crl hex_sha1 disk (fun _ => true) sha256 clock strict_manifests false add_invalid).
Notation api_get_file := (api_get_file read_file get_resource).
Notation api_explore_file := (api_explore_file sig_ok crl_sig_ok dec_tal dec_cert dec_roa dec_mft dec_crl hex_sha1 read_file get_resource clock strict_manifests strict_hash add_invalid).
Notation stream_loop := (stream_loop sig_ok crl_sig_ok dec_tal dec_cert dec_roa dec_mft dec_crl hex_sha1).
Notation api_next_repository := (api_next_repository sig_ok crl_sig_ok dec_tal dec_cert dec_roa dec_mft dec_crl hex_sha1 get_repository).
Notation api_explore_repository := (api_explore_repository sig_ok crl_sig_ok dec_tal dec_cert dec_roa dec_mft dec_crl hex_sha1 get_repository).
Notation api_iter := (api_iter sig_ok crl_sig_ok dec_tal dec_cert dec_roa dec_mft dec_crl hex_sha1 read_file get_resource get_repository clock strict_manifests strict_hash add_invalid).
Notation api_explore := (api_explore sig_ok crl_sig_ok dec_tal dec_cert dec_roa dec_mft dec_crl hex_sha1 read_file get_resource get_repository clock strict_manifests strict_hash add_invalid).
Notation anchor := (tal_anchor dec_tal dec_cert hex_sha1 disk).
Notation received := (received disk get_repository).

(** The files of the queue are those of the cache that the interface amounts to. *)
Definition source (f : pkifile) : option bytes :=
  if is_tal (f_type f) then read_file (f_path f) else get_resource (compute_path f).
Record QI (s : mgr) : Prop := {
  qi_queue : forall f, In f (m_queue s) -> disk (compute_path f) = source f;
  qi_init : forall x, In x init -> kin (m_unique s) (fd_path x) = true }.

Lemma served_other : forall k, (forall x, In x init -> fd_path x <> k) -> disk k = get_resource k.
Proof.
  intros k H. unfold served. destruct (find _ init) as [x|] eqn:F; auto. apply find_some in F. destruct F as (I & E).
  apply beq_eq in E. exfalso. eapply H; eauto.
Qed.

Lemma new_source : forall s f, QI s -> kin (m_unique s) (compute_path f) = false -> f_type f <> TTal ->
  disk (compute_path f) = source f.
Proof.
  intros s f Q K T. unfold source. rewrite served_other.
  - destruct (f_type f); try reflexivity. congruence.
  - intros x I E. apply (qi_init _ Q) in I. congruence.
Qed.

Lemma qi_put : forall l s, QI s -> (forall f, In f l -> f_type f <> TTal) -> QI (put_files l s).
Proof.
  intros l s Q T. destruct (put_files_spec l s) as (added & PE & PIN & PND & PU & PNEW & PALL).
  constructor.
  - intros f H. rewrite PE in H. cbn [m_queue] in H. apply in_app_or in H. destruct H as [H|H]; [now apply (qi_queue _ Q)|].
    apply (new_source s); auto. now apply PNEW.
  - intros x I. apply PU. left. now apply (qi_init _ Q).
Qed.

Lemma subs_not_tal : forall f d v v' valid subs oa err, ValidatorInv.Inv sig_ok (fun _ => True) v ->
  add_resource f d v = VRet (v', (valid, subs, oa, err)) ->
  forall x, In x subs -> fd_type x <> TTal.
Proof.
  intros f d v v' valid subs oa err I E x H.
  assert (RES := add_resource_result _ _ _ _ _ _ _ _ _ _ _ _ _ _ _ _ _ I E).
  destruct RES as [(_ & _ & ->)|(a & -> & RES)]; [contradiction|].
  destruct (f_type f); try (subst subs; contradiction).
  - destruct RES as (c & _ & _ & _ & [(-> & _)| ->]); [contradiction|]. eapply extract_cert_not_tal; eauto.
  - destruct RES as (m & _ & _ & Y). destruct (extract_mft_from _ _ _ Y H) as (name & h & _ & ->). apply determine_not_tal.
  - destruct RES as (t & _ & _ & -> & _). destruct H as [<-|[]]. discriminate.
Qed.

Lemma qi_same : forall s s', QI s -> incl (m_queue s') (m_queue s) -> m_unique s' = m_unique s -> QI s'.
Proof. intros s s' Q I U. constructor; [intros f H; apply (qi_queue _ Q), I, H|rewrite U; apply (qi_init _ Q)]. Qed.

Lemma qi_add : forall ai f d s s', QI s -> ValidatorInv.Inv sig_ok (fun _ => True) (m_v s) -> add ai f d s = VRet s' -> QI s'.
Proof.
  intros ai f d s s' Q I H. unfold Explore.explore_add in H. vb H. destruct y as (v & ((valid & subs) & oa) & err).
  set (s1 := mkM v (m_queue s) (kset (m_explored s) (compute_path f) true) (m_unique s) (m_rop s) (m_next s) (m_tick s)) in *.
  assert (Q1 : QI s1) by (eapply qi_same; [exact Q|apply incl_refl|reflexivity]).
  destruct (ai || valid); inversion H; subst s'; auto. clear H.
  eapply qi_same; [apply (qi_put (number_files (m_next s) (Some f) subs) s1 Q1)|cbn [m_queue]; apply incl_refl|reflexivity].
  intros f' K. apply number_files_in in K. destruct K as (_ & K). unfold f_type. eapply subs_not_tal; eauto.
Qed.

(** * One file *)
Lemma file_same : forall f s, disk (compute_path f) = source f -> api_explore_file f s = explore_file f s.
Proof.
  intros f s S. unfold Api.api_explore_file, Explore.explore_file, api_next_file, get_next_file.
  destruct (kin (m_explored s) (compute_path f)); [reflexivity|].
  unfold Api.api_get_file, get_file, fetch_file. rewrite S. unfold source.
  assert (CL : forall x, check_listed clock false f x s = VRet (s, true)).
  { intros x. unfold check_listed. destruct (fd_hash (f_desc f)); reflexivity. }
  destruct (is_tal (f_type f)).
  - destruct (read_file (f_path f)) as [raw|]; cbn [vbind]; [|reflexivity]. rewrite CL. reflexivity.
  - destruct (get_resource (compute_path f)) as [raw|]; cbn [vbind]; [|reflexivity].
    destruct (ber2der raw); cbn [vbind]; try reflexivity. rewrite CL. reflexivity.
Qed.

Lemma qi_file : forall f s s', QI s -> ValidatorInv.Inv sig_ok (fun _ => True) (m_v s) -> explore_file f s = VRet s' -> QI s'.
Proof.
  intros f s s' Q I H. unfold Explore.explore_file in H. vb H.
  assert (BAD : forall err s2, explore_bad strict_manifests err f s = VRet s2 -> QI s2).
  { intros err s2 E2. apply (explore_bad_spec sig_ok crl_sig_ok dec_tal dec_cert dec_roa dec_mft dec_crl hex_sha1 strict_manifests) in E2; auto.
    destruct E2 as (E2 & _). rewrite E2. eapply qi_same; [exact Q|apply incl_refl|reflexivity]. }
  destruct y as [| |d sha]; eauto.
  replace (check_listed clock false f sha s) with (VRet (s, true)) in H
    by (unfold check_listed; destruct (fd_hash (f_desc f)); reflexivity).
  cbn [vbind] in H. eapply qi_add; eauto.
Qed.

Lemma qi_start : forall now, QI (init_mgr now init).
Proof.
  intros now. unfold init_mgr. set (s0 := mkM _ _ _ _ _ _ _).
  assert (G : forall l n s pre, init = pre ++ l ->
    m_explored s = kempty ->
    (forall f, In f (m_queue s) -> disk (compute_path f) = source f) ->
    (forall x, In x pre -> kin (m_unique s) (fd_path x) = true) ->
    QI (put_files (number_files n None l) s)).
  { induction l as [|x l IH]; intros n s pre E X Q U; cbn [number_files put_files].
    - constructor; auto. rewrite E, app_nil_r. auto.
    - rewrite X. change (compute_path (PFile n x None)) with (fd_path x).
      change (kin kempty (fd_path x)) with false. cbn [orb].
      assert (E' : init = (pre ++ [x]) ++ l) by (rewrite <- app_assoc; exact E).
      destruct (kin (m_unique s) (fd_path x)) eqn:K.
      + apply (IH _ _ (pre ++ [x])); auto. intros y Y. apply in_app_or in Y. destruct Y as [Y|[<-|[]]]; auto.
      + apply (IH _ _ (pre ++ [x])); auto; cbn [m_queue m_unique].
        * intros f F. apply in_app_or in F. destruct F as [F|[<-|[]]]; auto.
          change (compute_path (PFile n x None)) with (fd_path x). unfold source, served.
          change (f_type (PFile n x None)) with (fd_type x). change (f_path (PFile n x None)) with (fd_path x).
          change (compute_path (PFile n x None)) with (fd_path x). rewrite E.
          assert (F : find (fun y => beq (fd_path y) (fd_path x)) (pre ++ x :: l) = Some x).
          { clear - U K. induction pre as [|y pre IH]; cbn [app find].
            - replace (beq (fd_path x) (fd_path x)) with true; auto. symmetry. now apply beq_eq.
            - destruct (beq (fd_path y) (fd_path x)) eqn:B.
              + apply beq_eq in B. specialize (U y (or_introl eq_refl)). rewrite B in U. congruence.
              + apply IH. intros z Z. apply U. now right. }
          rewrite F. destruct (fd_type x); reflexivity.
        * intros y Y. rewrite kin_kset, orb_true_iff, beq_eq. apply in_app_or in Y. destruct Y as [Y|[<-|[]]]; auto. }
  apply (G init 0%nat s0 []); auto; try (intros ? []); reflexivity.
Qed.

(** * Exploration by manifests *)
Notation MInv := (MInv sig_ok crl_sig_ok dec_tal dec_cert dec_roa dec_mft dec_crl hex_sha1 disk sha256 clock strict_manifests false add_invalid init).

Lemma iter_same : forall s, QI s -> api_iter false s = explore_iter s.
Proof.
  intros s Q. unfold Api.api_iter, Explore.explore_iter. destruct (m_queue s) as [|f q] eqn:E; [reflexivity|].
  cbn [negb orb]. apply file_same, (qi_queue _ Q). rewrite E. now left.
Qed.

Lemma qi_iter : forall s s', QI s -> ValidatorInv.Inv sig_ok (fun _ => True) (m_v s) -> explore_iter s = VRet s' -> QI s'.
Proof.
  intros s s' Q I H. unfold Explore.explore_iter in H. destruct (m_queue s) as [|f q] eqn:E; [inversion H; subst; auto|].
  eapply qi_file; [| |exact H]; [|exact I].
  eapply qi_same; [exact Q|cbn [m_queue]; rewrite E; intros x; right; auto|reflexivity].
Qed.

Lemma explore_same : forall fuel now T P s, QI s -> MInv now T P s -> api_explore false fuel s = explore fuel s.
Proof.
  induction fuel as [|fuel IH]; intros now T P s Q M; cbn [Api.api_explore Explore.explore]; [reflexivity|].
  destruct (m_queue s) as [|f q] eqn:E; [reflexivity|]. rewrite (iter_same _ Q).
  destruct (explore_iter s) as [s1| |] eqn:H; cbn [vbind]; try reflexivity.
  destruct (minv_step _ _ _ _ _ _ _ _ _ _ _ _ _ _ _ _ _ _ _ _ _ _ _ M E H) as (T' & _ & M').
  rewrite (IH now T' (P ++ [f]) s1); auto.
  eapply qi_iter; [exact Q|eapply minv_inv; exact M|exact H].
Qed.

Lemma api_same : forall fuel now, api_explore false fuel (init_mgr now init) = explore fuel (init_mgr now init).
Proof.
  intros fuel now.
  destruct (minv_init sig_ok crl_sig_ok dec_tal dec_cert dec_roa dec_mft dec_crl hex_sha1 disk sha256 clock strict_manifests false add_invalid init now)
    as (T & M).
  eapply explore_same; [apply qi_start|exact M].
Qed.

(** * Exploration by repositories *)
Lemma received_more : forall P P' f d, incl P P' -> received P f d -> received P' f d.
Proof.
  intros P P' f d S [[H1 H2]|(p & r & path & raw & H1 & H2)]; [left; auto|]. right. exists p, r, path, raw. auto.
Qed.
Lemma received_queue : forall P f raw d, In f P -> holds disk f raw d -> received P f d.
Proof. left. eauto. Qed.

Notation RInv := (GivenInv.RInv sig_ok crl_sig_ok dec_tal dec_cert dec_roa dec_mft dec_crl hex_sha1 disk received).
Definition arinv_more := GivenInv.rinv_more sig_ok crl_sig_ok dec_tal dec_cert dec_roa dec_mft dec_crl hex_sha1 disk received received_more.
Definition arinv_add := GivenInv.rinv_add sig_ok crl_sig_ok dec_tal dec_cert dec_roa dec_mft dec_crl hex_sha1 disk (fun _ => true) sha256 clock received received_more received_queue.
Definition arinv_file := GivenInv.rinv_file sig_ok crl_sig_ok dec_tal dec_cert dec_roa dec_mft dec_crl hex_sha1 disk (fun _ => true) sha256 clock strict_manifests false add_invalid received received_more received_queue.
Definition arinv_init := GivenInv.rinv_init sig_ok crl_sig_ok dec_tal dec_cert dec_roa dec_mft dec_crl hex_sha1 disk init received.

Lemma rinv_inv : forall now P s, RInv now P s -> ValidatorInv.Inv sig_ok (fun _ => True) (m_v s).
Proof. intros now P s M. eapply inv_mono; [|apply (GivenInv.ri_anch _ _ _ _ _ _ _ _ _ _ _ _ _ M)]. auto. Qed.

Lemma stream_file_for : forall p n path, stands_for p (stream_file p n path) path.
Proof.
  intros p n path. destruct (type_spec path) as (T1 & T2 & T3 & T4 & T5).
  repeat split; auto; try apply T1; try apply T2; try apply T3; try apply T4.
Qed.

(** The validator is given the whole stream, in order. *)
Lemma stream_given : forall p l s s', stream_loop p l s = VRet s' ->
  exists gs, Forall2 (fun x g => stands_for p (fst g) (fst x) /\ converted (snd x) (snd g)) l gs /\
    run (map (fun g => DoResource (fst g) (snd g)) gs) (m_v s) = VRet (m_v s').
Proof.
  intros p. induction l as [|[path raw] l IH]; intros s s' H; cbn [Api.stream_loop] in H.
  - inversion H; subst. exists []. split; [constructor|reflexivity].
  - vb H. rename y into d. vb H. rename y into s1.
    destruct (IH _ _ H) as (gs & G1 & G2).
    exists ((stream_file p (m_next s) path, d) :: gs). split.
    + constructor; auto. cbn [fst snd]. split; [apply stream_file_for|].
      unfold converted. destruct (ber2der raw); inversion E; subst; auto.
    + cbn [map Validator.run Validator.step fst snd]. unfold vfst.
      unfold Explore.explore_add in E0. vb E0. destruct y as (v & ((valid & subs) & oa) & err).
      cbn [m_v] in E1. rewrite E1. cbn [vbind].
      assert (V : m_v s1 = v).
      { destruct (false || valid); inversion E0; subst s1; [|reflexivity]. cbn [m_v].
        match goal with |- context [put_files ?l ?z] => destruct (put_files_spec l z) as (added & PE & _) end.
        rewrite PE. reflexivity. }
      rewrite <- V. exact G2.
Qed.

Notation sb := (fun x : bytes * bytes => names_bound dec_cert dec_mft match ber2der (snd x) with BOk d => d | _ => [] end).

Lemma rinv_stream : forall now P p r, In p P -> f_type p = TMft -> get_repository (fd_repo (f_desc p)) = Some r ->
  forall l, incl l (st_list r) -> forall s s', RInv now P s -> QI s -> stream_loop p l s = VRet s' ->
  RInv now P s' /\ QI s' /\ (forall k, kin (m_explored s) k = true -> kin (m_explored s') k = true) /\
  (length (m_queue s') <= length (m_queue s) + list_sum (map sb l))%nat.
Proof.
  intros now P p r PP PT RD. induction l as [|[path raw] l IH]; intros IN s s' M Q H; cbn [Api.stream_loop] in H.
  - inversion H; subst. split; auto. split; auto. split; auto. cbn. lia.
  - assert (IN' : incl l (st_list r)) by (intros x K; apply IN; now right).
    change (list_sum (map sb ((path, raw) :: l))) with (sb (path, raw) + list_sum (map sb l))%nat. cbn [snd].
    vb H. rename y into d. vb H. rename y into s1.
    assert (D : converted raw d /\ match ber2der raw with BOk d => d | _ => [] end = d).
    { unfold converted. destruct (ber2der raw); inversion E; subst; auto. }
    destruct D as (D & ->).
    set (s0 := mkM (m_v s) (m_queue s) (m_explored s) (m_unique s) (m_rop s) (S (m_next s)) (m_tick s)) in *.
    assert (M0 : RInv now P s0).
    { eapply arinv_more; [exact M|apply incl_refl|reflexivity|apply incl_refl]. }
    assert (Q0 : QI s0) by (eapply qi_same; [exact Q|apply incl_refl|reflexivity]).
    set (f := stream_file p (m_next s) path) in *.
    assert (SF : stands_for p f path) by apply stream_file_for.
    assert (NT : f_type f <> TTal) by apply SF.
    assert (HA : received P f d).
    { right. exists p, r, path, raw. repeat split; auto; try apply SF. apply IN. now left. }
    destruct (arinv_add false now P s0 f d s1 M0 HA) as (A & B & C & _); auto.
    { intros K. discriminate K. }
    { intros K. congruence. }
    assert (Q1 : QI s1) by (eapply qi_add; [exact Q0|eapply rinv_inv; exact M0|exact E0]).
    destruct (IH IN' _ _ A Q1 H) as (A2 & B2 & C2 & D2). split; auto. split; auto. split.
    + intros k K. apply C2. rewrite B, kin_kset. change (m_explored s0) with (m_explored s). rewrite K. apply orb_true_r.
    + change (m_queue s0) with (m_queue s) in C.
      assert (C3 : (match f_type f with TTal => 1 | TCer | TMft => names_bound dec_cert dec_mft d | _ => 0 end
                    <= names_bound dec_cert dec_mft d)%nat).
      { destruct (f_type f); try lia. congruence. }
      lia.
Qed.

Notation found := (found_bound dec_cert dec_mft disk).
Notation streams := (stream_bound dec_cert dec_mft get_repository).

Lemma rinv_repo : forall now P s p s', RInv now P s -> QI s -> In p P -> f_type p = TMft ->
  api_explore_repository p s = VRet s' ->
  RInv now P s' /\ QI s' /\ (forall k, kin (m_explored s) k = true -> kin (m_explored s') k = true) /\
  ((length (m_queue s') <= length (m_queue s))%nat \/
   kin (m_explored s) (fd_repo (f_desc p)) = false /\ kin (m_explored s') (fd_repo (f_desc p)) = true /\
   get_repository (fd_repo (f_desc p)) <> None /\
   (length (m_queue s') <= length (m_queue s) + streams (fd_repo (f_desc p)))%nat).
Proof.
  intros now P s p s' M Q PP PT H. unfold Api.api_explore_repository in H. vb H. destruct y as (s1 & er).
  inversion H; subst s'. clear H. cbn [m_v m_queue m_explored].
  assert (G : RInv now P s1 -> QI s1 -> let s2 := mkM (m_v s1) (m_queue s1) (kset (m_explored s1) (fd_repo (f_desc p)) true) (m_unique s1) (m_rop s1) (m_next s1) (m_tick s1) in
    RInv now P s2 /\ QI s2).
  { intros M1 Q1. split; [eapply arinv_more; [exact M1|apply incl_refl|reflexivity|apply incl_refl]|].
    eapply qi_same; [exact Q1|apply incl_refl|reflexivity]. }
  assert (K0 : forall k, kin (m_explored s1) k = true -> kin (kset (m_explored s1) (fd_repo (f_desc p)) true) k = true).
  { intros k K. rewrite kin_kset, K. apply orb_true_r. }
  unfold Api.api_next_repository in E.
  destruct (kin (m_explored s) (fd_repo (f_desc p))) eqn:KE.
  { inversion E; subst. destruct (G M Q). auto. }
  destruct (get_repository (fd_repo (f_desc p))) as [r|] eqn:RD.
  2:{ inversion E; subst. destruct (G M Q). auto. }
  vb E. injection E as <- _.
  destruct (rinv_stream now P p r PP PT RD (st_list r) (incl_refl _) _ _ M Q E0) as (A & B & C & D).
  destruct (G A B) as (G1 & G2). split; [exact G1|]. split; [exact G2|]. split; [auto|].
  right. split; auto. split; [rewrite kin_kset, orb_true_iff; left; now apply beq_eq|].
  split; [discriminate|]. unfold stream_bound. rewrite RD. exact D.
Qed.

Lemma arinv_step : forall now P s f q s', RInv now P s -> QI s -> m_queue s = f :: q -> api_iter not_mft s = VRet s' ->
  RInv now (P ++ [f]) s' /\ QI s'.
Proof.
  intros now P s f q s' M Q E H. unfold Api.api_iter in H. rewrite E in H.
  assert (SF : disk (compute_path f) = source f) by (apply (qi_queue _ Q); rewrite E; now left).
  set (s0 := mkM (m_v s) q (m_explored s) (m_unique s) (m_rop s) (m_next s) (S (m_tick s))) in *.
  assert (M0 : RInv now (P ++ [f]) s0).
  { eapply arinv_more; [exact M|intros x K; apply in_or_app; auto|reflexivity|].
    cbn [s0 m_queue]. rewrite E, <- app_assoc. apply incl_refl. }
  assert (Q0 : QI s0).
  { eapply qi_same; [exact Q|cbn [s0 m_queue]; rewrite E; intros x; right; auto|reflexivity]. }
  assert (FP : In f (P ++ [f])) by (apply in_or_app; right; now left).
  destruct (negb not_mft || negb (is_mft (f_type f))) eqn:FT.
  - rewrite (file_same f s0 SF) in H. split; [now apply (arinv_file _ _ _ _ _ M0 FP) in H|].
    eapply qi_file; [exact Q0|eapply rinv_inv; exact M0|exact H].
  - apply orb_false_iff in FT. destruct FT as (_ & FT).
    assert (f_type f = TMft) by (destruct (f_type f); auto; discriminate).
    destruct (rinv_repo _ _ _ _ _ M0 Q0 FP H0 H) as (A & B & _). auto.
Qed.

Lemma arinv_reach : forall now P s, explores (api_iter not_mft) (init_mgr now init) P s ->
  (forall x, In x init -> fd_trust x = false) -> RInv now P s.
Proof.
  intros now P s H U. assert (M := arinv_init now U). assert (Q := qi_start now).
  change P with ([] ++ P). revert M Q. generalize (@nil pkifile).
  clear U. induction H as [s|s f q s1 l s2 E1 E H IH]; intros P0 M Q; [now rewrite app_nil_r|].
  change (f :: l) with ([f] ++ l). rewrite app_assoc. destruct (arinv_step _ _ _ _ _ _ M Q E1 E). apply IH; auto.
Qed.

Lemma api_run : forall now P s, explores (api_iter not_mft) (init_mgr now init) P s ->
  (forall x, In x init -> fd_trust x = false) ->
  exists ops, run ops (new_validator now) = VRet (m_v s) /\
    forall o, In o ops -> match o with
      | DoResource f d => received P f d
      | DoInvalidate _ => True
      | _ => False
      end.
Proof.
  intros now P s H U. destruct (GivenInv.ri_run _ _ _ _ _ _ _ _ _ _ _ _ _ (arinv_reach _ _ _ H U)) as (ops & F & R).
  exists ops. split; auto. rewrite Forall_forall in F. exact F.
Qed.

Lemma api_chain : forall now P s, explores (api_iter not_mft) (init_mgr now init) P s ->
  (forall x, In x init -> fd_trust x = false) ->
  (forall c, valid_cert (m_v s) c -> chain_to sig_ok (anchor P) (m_v s) c) /\
  (forall x, valid_roa (m_v s) x -> chain_to sig_ok (anchor P) (m_v s) (roa_cert x)).
Proof.
  intros now P s H U.
  exact (GivenInv.rinv_chain sig_ok crl_sig_ok dec_tal dec_cert dec_roa dec_mft dec_crl hex_sha1 disk clock received _ _ _ (arinv_reach _ _ _ H U)).
Qed.

Lemma api_sequence : forall fuel s s' n, api_explore not_mft fuel s = VRet (s', n) ->
  exists l, explores (api_iter not_mft) s l s' /\ length l = n /\ m_queue s' = [].
Proof.
  induction fuel as [|fuel IH]; intros s s' n H; cbn [Api.api_explore] in H; destruct (m_queue s) as [|f q] eqn:Q; try discriminate.
  - inversion H; subst. exists []. repeat split; auto. constructor.
  - inversion H; subst. exists []. repeat split; auto. constructor.
  - vb H. vb H. destruct y0 as (s2 & k). inversion H; subst. destruct (IH _ _ _ E0) as (l & L1 & L2 & L3).
    exists (f :: l). repeat split; auto; [|cbn; congruence]. eapply ex_step; eauto.
Qed.

(** The answer to a request for a repository. *)
Lemma next_repository : forall p s s' err, api_next_repository p s = VRet (s', err) ->
  match get_repository (fd_repo (f_desc p)) with
  | Some r =>
      if kin (m_explored s) (fd_repo (f_desc p)) then err = true /\ s' = s
      else err = false /\
        exists gs, Forall2 (fun x g => stands_for p (fst g) (fst x) /\ converted (snd x) (snd g)) (st_list r) gs /\
          run (map (fun g => DoResource (fst g) (snd g)) gs) (m_v s) = VRet (m_v s')
  | None => err = true /\ s' = s
  end.
Proof.
  intros p s s' err H. unfold Api.api_next_repository in H.
  destruct (kin (m_explored s) (fd_repo (f_desc p))).
  - injection H as <- <-. destruct (get_repository _); auto.
  - destruct (get_repository _) as [r|].
    + vb H. injection H as <- <-. split; auto. now apply stream_given.
    + injection H as <- <-. auto.
Qed.

(** * It ends *)
Section Ends.
Variable keys dnames : list bytes.
Hypothesis octets : forall k raw, disk k = Some raw -> bytes_ok raw = true.
Hypothesis stream_octets : forall k r x, get_repository k = Some r -> In x (st_list r) -> bytes_ok (snd x) = true.
Hypothesis all_keys : forall k, disk k <> None -> In k keys.
Hypothesis all_dirs : forall k, get_repository k <> None -> In k dnames.

Lemma stream_no_fuel : forall now P p r, In p P -> f_type p = TMft -> get_repository (fd_repo (f_desc p)) = Some r ->
  forall l, incl l (st_list r) -> forall s, RInv now P s -> QI s -> stream_loop p l s <> VFuel.
Proof.
  intros now P p r PP PT RD. induction l as [|[path raw] l IH]; intros IN s M Q; cbn [Api.stream_loop]; [discriminate|].
  assert (IN' : incl l (st_list r)) by (intros x K; apply IN; now right).
  assert (BF : ber2der raw <> BFuel).
  { apply ber2der_terminates. apply (stream_octets _ _ _ RD (IN _ (or_introl eq_refl))). }
  assert (ONE := rinv_stream now P p r PP PT RD [(path, raw)] (fun x K => IN x (match K with or_introl e => or_introl e | or_intror F => match F with end end))).
  cbn [Api.stream_loop] in ONE.
  destruct (match ber2der raw with BOk d => VRet d | BErr => VRet [] | BPanic => VPanic | BFuel => VFuel end) as [d| |] eqn:E;
    cbn [vbind]; [|discriminate|destruct (ber2der raw); try discriminate; congruence].
  set (s0 := mkM (m_v s) (m_queue s) (m_explored s) (m_unique s) (m_rop s) (S (m_next s)) (m_tick s)) in *.
  set (f := stream_file p (m_next s) path) in *.
  destruct (add false f d s0) as [s1| |] eqn:E0; cbn [vbind]; [|discriminate|].
  - destruct (ONE s s1 M Q) as (A & B & _); [|apply IH; auto].
    cbn [vbind]. fold s0 f. rewrite E0. reflexivity.
  - exfalso. revert E0. apply (explore_add_no_fuel sig_ok crl_sig_ok dec_tal dec_cert dec_roa dec_mft dec_crl hex_sha1 false (fun _ => True)).
    exact (rinv_inv _ _ _ M).
Qed.

Lemma api_ends : forall now fuel P s, RInv now P s -> QI s ->
  (length (m_queue s) + left_of found keys s + left_of streams dnames s <= fuel)%nat -> api_explore not_mft fuel s <> VFuel.
Proof.
  intros now. induction fuel as [|fuel IH]; intros P s M QS W; cbn [Api.api_explore]; destruct (m_queue s) as [|f q] eqn:Q;
    try discriminate; try (cbn in W; lia).
  cbn [length] in W.
  assert (ST : api_iter not_mft s <> VFuel /\ forall s1, api_iter not_mft s = VRet s1 ->
     (length (m_queue s1) + left_of found keys s1 + left_of streams dnames s1 <= fuel)%nat).
  { unfold Api.api_iter. rewrite Q.
    assert (SF : disk (compute_path f) = source f) by (apply (qi_queue _ QS); rewrite Q; now left).
    set (s0 := mkM (m_v s) q (m_explored s) (m_unique s) (m_rop s) (m_next s) (S (m_tick s))).
    assert (M0 : RInv now (P ++ [f]) s0).
    { eapply arinv_more; [exact M|intros x K; apply in_or_app; auto|reflexivity|].
      cbn [s0 m_queue]. rewrite Q, <- app_assoc. apply incl_refl. }
    assert (Q0 : QI s0).
    { eapply qi_same; [exact QS|cbn [s0 m_queue]; rewrite Q; intros x; right; auto|reflexivity]. }
    assert (FP : In f (P ++ [f])) by (apply in_or_app; right; now left).
    assert (L1 : left_of found keys s0 = left_of found keys s) by reflexivity.
    assert (L2 : left_of streams dnames s0 = left_of streams dnames s) by reflexivity.
    assert (LQ : m_queue s0 = q) by reflexivity. clearbody s0.
    destruct (negb not_mft || negb (is_mft (f_type f))) eqn:FT.
    - rewrite (file_same f s0 SF). split.
      { apply (GivenInv.file_ends sig_ok crl_sig_ok dec_tal dec_cert dec_roa dec_mft dec_crl hex_sha1 disk (fun _ => true) sha256 clock strict_manifests false add_invalid octets (fun _ => True)).
        exact (rinv_inv _ _ _ M0). }
      intros s1 E. destruct (arinv_file _ _ _ _ _ M0 FP E) as (_ & MO & [C|(C1 & C2 & C3 & C4)]);
        pose proof (left_less streams dnames _ _ MO).
      + pose proof (left_less found keys _ _ MO). rewrite LQ in C. lia.
      + pose proof (left_take found keys _ _ _ MO (all_keys _ C3) C1 C2). rewrite LQ in C4. lia.
    - apply orb_false_iff in FT. destruct FT as (_ & FT).
      assert (FM : f_type f = TMft) by (destruct (f_type f); auto; discriminate). split.
      + unfold Api.api_explore_repository, Api.api_next_repository. destruct (kin (m_explored s0) (fd_repo (f_desc f))); [discriminate|].
        destruct (get_repository (fd_repo (f_desc f))) as [r|] eqn:RD; [|discriminate].
        destruct (stream_loop f (st_list r) s0) eqn:E; cbn [vbind]; try discriminate.
        exfalso. revert E. eapply stream_no_fuel; eauto. apply incl_refl.
      + intros s1 E. destruct (rinv_repo _ _ _ _ _ M0 Q0 FP FM E) as (_ & _ & MO & [C|(C1 & C2 & C3 & C4)]);
          pose proof (left_less found keys _ _ MO).
        * pose proof (left_less streams dnames _ _ MO). rewrite LQ in C. lia.
        * pose proof (left_take streams dnames _ _ _ MO (all_dirs _ C3) C1 C2). rewrite LQ in C4. lia. }
  destruct ST as (NF & ST). destruct (api_iter not_mft s) as [s1| |] eqn:E; cbn [vbind]; [|discriminate|congruence].
  destruct (arinv_step _ _ _ _ _ _ M QS Q E) as (A & B).
  specialize (IH (P ++ [f]) s1 A B (ST _ eq_refl)).
  destruct (api_explore not_mft fuel s1) as [(s2 & n)| |]; cbn [vbind]; congruence.
Qed.

Lemma api_total : forall now fuel, (forall x, In x init -> fd_trust x = false) ->
  (length init + list_sum (map found keys) + list_sum (map streams dnames) <= fuel)%nat ->
  api_explore not_mft fuel (init_mgr now init) <> VFuel.
Proof.
  intros now fuel U W. apply (api_ends now fuel [] _ (arinv_init now U) (qi_start now)).
  assert (L : (length (m_queue (init_mgr now init)) <= length init)%nat).
  { unfold init_mgr. eapply Nat.le_trans; [apply queue_length|]. cbn [m_queue length]. rewrite number_files_length. lia. }
  assert (WE : forall g l, (left_of g l (init_mgr now init) <= list_sum (map g l))%nat).
  { clear. intros g l. induction l as [|k l IH]; [apply le_n|]. rewrite left_cons. cbn [map].
    change (list_sum (g k :: map g l)) with (g k + list_sum (map g l))%nat. destruct (kin _ _); lia. }
  pose proof (WE found keys). pose proof (WE streams dnames). lia.
Qed.
End Ends.
End Api.

(** The setting for digests and update times has no effect. *)
Lemma strict_ignored : forall sig_ok crl_sig_ok dec_tal dec_cert dec_roa dec_mft dec_crl hex_sha1 read_file get_resource get_repository
  clock clock' strict_manifests add_invalid not_mft h h' fuel s,
  api_explore sig_ok crl_sig_ok dec_tal dec_cert dec_roa dec_mft dec_crl hex_sha1 read_file get_resource get_repository
    clock strict_manifests h add_invalid not_mft fuel s =
  api_explore sig_ok crl_sig_ok dec_tal dec_cert dec_roa dec_mft dec_crl hex_sha1 read_file get_resource get_repository
    clock' strict_manifests h' add_invalid not_mft fuel s.
Proof.
  intros. revert s. induction fuel as [|fuel IH]; intros s; cbn [api_explore]; [reflexivity|].
  destruct (m_queue s) as [|f q] eqn:Q; [reflexivity|].
  match goal with |- vbind ?a _ = vbind ?b _ => assert (E : a = b) end.
  { unfold api_iter. rewrite Q. destruct (_ || _); [|reflexivity].
    unfold api_explore_file, api_next_file. destruct (kin _ _); [reflexivity|].
    unfold api_get_file. destruct (is_tal (f_type f)).
    - destruct (read_file (f_path f)); reflexivity.
    - destruct (fetch_file get_resource (compute_path f)) as [[d|]| |]; reflexivity. }
  rewrite E. destruct (api_iter _ _ _ _ _ _ _ _ _ _ _ clock' _ _ _ _ s) as [s1| |]; cbn [vbind]; auto. rewrite IH. reflexivity.
Qed.
