(** Repository mode: invariant, termination. *)
From Coq Require Import Lia.
From Verif.Model Require Import Base Str Ber Tal Validator Explore Repo.
From Verif.Spec Require Import Trust Discovery CtSpec RepoSpec.
From Verif.Proofs Require Import StrProofs BerProofs HeapProofs Invalidate ValidatorFacts ValidatorInv ValidatorRun ValidatorMisc ValidatorMono
  ExploreFacts ExploreInv ExploreThm Provenance GivenInv.

Lemma after_dot_spec : forall l acc,
  (~ In 46 l /\ after_dot acc l = acc) \/
  (exists a x, l = a ++ 46 :: x /\ ~ In 46 x /\ after_dot acc l = x).
Proof.
  induction l as [|c l IH]; intros acc; cbn [after_dot].
  - left. split; auto.
  - destruct (Z.eqb_spec c 46) as [->|N].
    + right. destruct (IH l) as [(A & B)|(a & x & -> & A & B)].
      * exists [], l. auto.
      * exists (46 :: a), x. auto.
    + destruct (IH acc) as [(A & B)|(a & x & -> & A & B)].
      * left. split; auto. intros [K|K]; congruence.
      * right. exists (c :: a), x. auto.
Qed.

Lemma dot_unique : forall (a b x y : bytes), ~ In 46 x -> ~ In 46 y -> a ++ 46 :: x = b ++ 46 :: y -> x = y.
Proof.
  induction a as [|c a IH]; intros [|c' b] x y NX NY H; cbn in H; inversion H; subst; auto.
  - exfalso. apply NX. apply in_or_app. right. now left.
  - exfalso. apply NY. apply in_or_app. right. now left.
  - eauto.
Qed.

Lemma ending_iff : forall name x, ending name x <-> after_dot name name = x.
Proof.
  intros name x. destruct (after_dot_spec name name) as [(A & B)|(a & y & E & A & B)]; rewrite B; split.
  - intros H. inversion H as [z Z E1 E2|b z Z E1 E2]; auto. exfalso. apply A. rewrite <- E1. apply in_or_app. right. now left.
  - intros <-. now constructor.
  - rewrite E. intros H. inversion H as [z Z E1 E2|b z Z E1 E2].
    + subst. exfalso. apply Z. apply in_or_app. right. now left.
    + subst z. symmetry. eapply dot_unique; eauto.
  - intros <-. rewrite E. now constructor.
Qed.

Lemma type_spec : forall name,
  (type_of_name name = TRoa <-> ending name [114; 111; 97]) /\
  (type_of_name name = TCer <-> ending name [99; 101; 114]) /\
  (type_of_name name = TMft <-> ending name [109; 102; 116]) /\
  (type_of_name name = TCrl <-> ending name [99; 114; 108]) /\
  type_of_name name <> TTal.
Proof.
  intros name. rewrite !ending_iff. unfold type_of_name. set (x := after_dot name name). clearbody x.
  destruct (beq x [99; 114; 108]) eqn:E1; [apply beq_eq in E1; subst x; repeat split; intros; congruence|].
  destruct (beq x [99; 101; 114]) eqn:E2; [apply beq_eq in E2; subst x; repeat split; intros; congruence|].
  destruct (beq x [109; 102; 116]) eqn:E3; [apply beq_eq in E3; subst x; repeat split; intros; congruence|].
  destruct (beq x [114; 111; 97]) eqn:E4; [apply beq_eq in E4; subst x; repeat split; intros; congruence|].
  assert (N : forall y, beq x y = false -> x <> y).
  { intros y F ->. assert (beq y y = true) by now apply beq_eq. congruence. }
  apply N in E1, E2, E3, E4. repeat split; intros; congruence.
Qed.

Section Repo.
Variable sig_ok : cert -> cert -> bool.
Variable crl_sig_ok : cert -> crl -> bool.
Variable dec_tal : bytes -> option tal.
Variable dec_cert : bytes -> option cert.
Variable dec_roa : bytes -> option roa.
Variable dec_mft : bytes -> option mft.
Variable dec_crl : bytes -> option crl.
Variable hex_sha1 : bytes -> bytes.
Variable disk : bytes -> option bytes.
Variable synced : bytes -> bool.
Variable sha256 : bytes -> bytes.
Variable clock : nat -> Z * Z.
Variable strict_manifests : bool.
Variable strict_hash : bool.
Variable add_invalid : bool.
Variable read_dir : bytes -> option (list dirent).
Variable init : list fdesc.
Notation run := (run sig_ok crl_sig_ok dec_tal dec_cert dec_roa dec_mft dec_crl hex_sha1).
Notation add_resource := (add_resource sig_ok crl_sig_ok dec_tal dec_cert dec_roa dec_mft dec_crl hex_sha1).
Notation add := (explore_add sig_ok crl_sig_ok dec_tal dec_cert dec_roa dec_mft dec_crl hex_sha1).
Notation explore_file := (explore_file sig_ok crl_sig_ok dec_tal dec_cert dec_roa dec_mft dec_crl hex_sha1 disk synced sha256 clock strict_manifests strict_hash add_invalid).
Notation dir_loop := (dir_loop sig_ok crl_sig_ok dec_tal dec_cert dec_roa dec_mft dec_crl hex_sha1).
Notation explore_repository := (explore_repository sig_ok crl_sig_ok dec_tal dec_cert dec_roa dec_mft dec_crl hex_sha1 read_dir).
Notation repo_iter := (repo_iter sig_ok crl_sig_ok dec_tal dec_cert dec_roa dec_mft dec_crl hex_sha1 disk synced sha256 clock strict_manifests strict_hash add_invalid read_dir).
Notation repo_explore := (repo_explore sig_ok crl_sig_ok dec_tal dec_cert dec_roa dec_mft dec_crl hex_sha1 disk synced sha256 clock strict_manifests strict_hash add_invalid read_dir).
Notation holds := (holds disk).
Notation handed := (handed disk read_dir).
Notation anchor := (tal_anchor dec_tal dec_cert hex_sha1 disk).
Notation invals := (invals sig_ok crl_sig_ok dec_tal dec_cert dec_roa dec_mft dec_crl hex_sha1).

Lemma handed_more : forall P P' f d, incl P P' -> handed P f d -> handed P' f d.
Proof.
  intros P P' f d S [[H1 H2]|(p & l & e & raw & H1 & H2)]; [left; auto|]. right. exists p, l, e, raw. auto.
Qed.
Lemma handed_queue : forall P f raw d, In f P -> holds f raw d -> handed P f d.
Proof. left. eauto. Qed.

Notation RInv := (GivenInv.RInv sig_ok crl_sig_ok dec_tal dec_cert dec_roa dec_mft dec_crl hex_sha1 disk handed).
Definition rinv_more := rinv_more sig_ok crl_sig_ok dec_tal dec_cert dec_roa dec_mft dec_crl hex_sha1 disk handed handed_more.
Definition rinv_add := rinv_add sig_ok crl_sig_ok dec_tal dec_cert dec_roa dec_mft dec_crl hex_sha1 disk synced sha256 clock handed handed_more handed_queue.
Definition rinv_file := rinv_file sig_ok crl_sig_ok dec_tal dec_cert dec_roa dec_mft dec_crl hex_sha1 disk synced sha256 clock strict_manifests strict_hash add_invalid handed handed_more handed_queue.
Definition rinv_init := rinv_init sig_ok crl_sig_ok dec_tal dec_cert dec_roa dec_mft dec_crl hex_sha1 disk init handed.
Definition ri_anch := ri_anch sig_ok crl_sig_ok dec_tal dec_cert dec_roa dec_mft dec_crl hex_sha1 disk handed.
Definition ri_run := ri_run sig_ok crl_sig_ok dec_tal dec_cert dec_roa dec_mft dec_crl hex_sha1 disk handed.
Definition rinv_chain := rinv_chain sig_ok crl_sig_ok dec_tal dec_cert dec_roa dec_mft dec_crl hex_sha1 disk clock handed.

(** * One iteration *)
Lemma rinv_dir : forall now P p l l0, In p P -> f_type p = TMft -> read_dir (fd_repo (f_desc p)) = Some l0 -> incl l l0 ->
  forall s s', RInv now P s -> dir_loop p l s = VRet s' ->
  RInv now P s' /\ (forall k, kin (m_explored s) k = true -> kin (m_explored s') k = true) /\
  (length (m_queue s') <= length (m_queue s) +
     list_sum (map (fun e => match de_data e with
                             | Some raw => match ber2der raw with BOk d => names_bound dec_cert dec_mft d | _ => 0 end
                             | None => 0
                             end) l))%nat.
Proof.
  intros now P p l l0 PP PT RD. set (g := fun e : dirent => _ : nat).
  induction l as [|e l IH]; intros IN s s' M H; cbn [Repo.dir_loop] in H.
  - inversion H; subst. split; auto. split; auto. cbn. lia.
  - assert (IN' : incl l l0) by (intros x K; apply IN; now right).
    change (list_sum (map g (e :: l))) with (g e + list_sum (map g l))%nat.
    destruct (de_dir e) eqn:DD.
    { destruct (IH IN' _ _ M H) as (A & B & C). split; auto. split; auto. lia. }
    destruct (de_data e) as [raw|] eqn:DA; [|inversion H; subst; split; auto; split; auto; lia].
    destruct (ber2der raw) as [d| | |] eqn:BD; try discriminate; [|inversion H; subst; split; auto; split; auto; lia].
    assert (GE : g e = names_bound dec_cert dec_mft d) by (unfold g; rewrite DA, BD; reflexivity).
    vb H. set (s0 := mkM (m_v s) (m_queue s) (m_explored s) (m_unique s) (m_rop s) (S (m_next s)) (m_tick s)) in *.
    assert (M0 : RInv now P s0).
    { eapply rinv_more; [exact M|apply incl_refl|reflexivity|apply incl_refl]. }
    set (f := dir_file p (m_next s) (de_name e)) in *.
    destruct (type_spec (de_name e)) as (T1 & T2 & T3 & T4 & T5).
    assert (HA : handed P f d).
    { right. exists p, l0, e, raw. repeat split; auto; try apply T1; try apply T2; try apply T3; try apply T4. apply IN. now left. }
    destruct (rinv_add false now P s0 f d y M0 HA) as (A & B & C & _); auto.
    { intros K. discriminate K. }
    { intros K. exfalso. apply T5. exact K. }
    destruct (IH IN' _ _ A H) as (A2 & B2 & C2). split; auto. split.
    + intros k K. apply B2. rewrite B, kin_kset. change (m_explored s0) with (m_explored s). rewrite K. apply orb_true_r.
    + change (m_queue s0) with (m_queue s) in C.
      assert (C3 : (match f_type f with TTal => 1 | TCer | TMft => names_bound dec_cert dec_mft d | _ => 0 end
                    <= names_bound dec_cert dec_mft d)%nat).
      { destruct (f_type f) eqn:FT; try lia. exfalso. apply T5. exact FT. }
      lia.
Qed.

Notation found := (found_bound dec_cert dec_mft disk).
Notation dirs := (dir_bound read_dir dec_cert dec_mft).

Lemma rinv_repository : forall now P s p s', RInv now P s -> In p P -> f_type p = TMft ->
  explore_repository p s = VRet s' ->
  RInv now P s' /\ (forall k, kin (m_explored s) k = true -> kin (m_explored s') k = true) /\
  ((length (m_queue s') <= length (m_queue s))%nat \/
   kin (m_explored s) (fd_repo (f_desc p)) = false /\ kin (m_explored s') (fd_repo (f_desc p)) = true /\
   read_dir (fd_repo (f_desc p)) <> None /\
   (length (m_queue s') <= length (m_queue s) + dirs (fd_repo (f_desc p)))%nat).
Proof.
  intros now P s p s' M PP PT H. unfold Repo.explore_repository in H. vb H. inversion H; subst s'. clear H.
  cbn [m_v m_queue m_explored]. rename y into s1.
  assert (G : RInv now P s1 -> RInv now P (mkM (m_v s1) (m_queue s1) (kset (m_explored s1) (fd_repo (f_desc p)) true) (m_unique s1) (m_rop s1) (m_next s1) (m_tick s1))).
  { intros M1. eapply rinv_more; [exact M1|apply incl_refl|reflexivity|apply incl_refl]. }
  assert (K0 : forall k, kin (m_explored s1) k = true -> kin (kset (m_explored s1) (fd_repo (f_desc p)) true) k = true).
  { intros k K. rewrite kin_kset, K. apply orb_true_r. }
  destruct (kin (m_explored s) (fd_repo (f_desc p))) eqn:KE; [inversion E; subst; auto|].
  destruct (read_dir (fd_repo (f_desc p))) as [l|] eqn:RD; [|inversion E; subst; auto].
  destruct (rinv_dir now P p l l PP PT RD (incl_refl _) _ _ M E) as (A & B & C).
  split; auto. split; auto. right. split; auto. split; [rewrite kin_kset, orb_true_iff; left; now apply beq_eq|].
  split; [discriminate|]. unfold dir_bound. rewrite RD. exact C.
Qed.

Lemma rinv_step : forall now P s f q s', RInv now P s -> m_queue s = f :: q -> repo_iter s = VRet s' ->
  RInv now (P ++ [f]) s'.
Proof.
  intros now P s f q s' M Q H. unfold Repo.repo_iter in H. rewrite Q in H.
  set (s0 := mkM (m_v s) q (m_explored s) (m_unique s) (m_rop s) (m_next s) (S (m_tick s))) in *.
  assert (M0 : RInv now (P ++ [f]) s0).
  { eapply rinv_more; [exact M|intros x K; apply in_or_app; auto|reflexivity|].
    cbn [s0 m_queue]. rewrite Q, <- app_assoc. apply incl_refl. }
  assert (FP : In f (P ++ [f])) by (apply in_or_app; right; now left).
  destruct (is_mft (f_type f)) eqn:FT.
  - assert (f_type f = TMft) by (destruct (f_type f); auto; discriminate). now apply (rinv_repository _ _ _ _ _ M0 FP) in H.
  - now apply (rinv_file _ _ _ _ _ M0 FP) in H.
Qed.

Lemma rinv_reach : forall now P s, explores repo_iter (init_mgr now init) P s ->
  (forall x, In x init -> fd_trust x = false) -> RInv now P s.
Proof.
  intros now P s H U. assert (M := rinv_init now U). change P with ([] ++ P). revert M. generalize (@nil pkifile).
  clear U. induction H as [s|s f q s1 l s2 Q E H IH]; intros P0 M; [now rewrite app_nil_r|].
  change (f :: l) with ([f] ++ l). rewrite app_assoc. apply IH. eapply rinv_step; eauto.
Qed.

(** * The theorems *)
Lemma repo_sequence : forall fuel s s' n, repo_explore fuel s = VRet (s', n) ->
  exists l, explores repo_iter s l s' /\ length l = n /\ m_queue s' = [].
Proof.
  induction fuel as [|fuel IH]; intros s s' n H; cbn [Repo.repo_explore] in H; destruct (m_queue s) as [|f q] eqn:Q; try discriminate.
  - inversion H; subst. exists []. repeat split; auto. constructor.
  - inversion H; subst. exists []. repeat split; auto. constructor.
  - vb H. vb H. destruct y0 as (s2 & k). inversion H; subst. destruct (IH _ _ _ E0) as (l & L1 & L2 & L3).
    exists (f :: l). repeat split; auto; [|cbn; congruence]. eapply ex_step; eauto.
Qed.

Lemma repo_run : forall now P s, explores repo_iter (init_mgr now init) P s ->
  (forall x, In x init -> fd_trust x = false) ->
  exists ops, run ops (new_validator now) = VRet (m_v s) /\
    forall o, In o ops -> match o with
      | DoResource f d => handed P f d
      | DoInvalidate _ => True
      | _ => False
      end.
Proof.
  intros now P s H U. destruct (ri_run _ _ _ (rinv_reach _ _ _ H U)) as (ops & F & R).
  exists ops. split; auto. rewrite Forall_forall in F. exact F.
Qed.

Lemma repo_chain : forall now P s, explores repo_iter (init_mgr now init) P s ->
  (forall x, In x init -> fd_trust x = false) ->
  (forall c, valid_cert (m_v s) c -> chain_to sig_ok (anchor P) (m_v s) c) /\
  (forall x, valid_roa (m_v s) x -> chain_to sig_ok (anchor P) (m_v s) (roa_cert x)).
Proof. intros now P s H U. exact (rinv_chain _ _ _ (rinv_reach _ _ _ H U)). Qed.

(** * Termination *)
Section Ends.
Variable keys dnames : list bytes.
Hypothesis octets : forall k raw, disk k = Some raw -> bytes_ok raw = true.
Hypothesis dir_octets : forall r l e raw, read_dir r = Some l -> In e l -> de_data e = Some raw -> bytes_ok raw = true.
Hypothesis all_keys : forall k, disk k <> None -> In k keys.
Hypothesis all_dirs : forall r, read_dir r <> None -> In r dnames.

Definition left_of (g : bytes -> nat) (l : list bytes) (s : mgr) : nat :=
  list_sum (map (fun k => if kin (m_explored s) k then 0%nat else g k) l).

Lemma left_cons : forall g k l s, left_of g (k :: l) s = ((if kin (m_explored s) k then 0 else g k) + left_of g l s)%nat.
Proof. reflexivity. Qed.

Lemma left_less : forall g l s s', (forall k, kin (m_explored s) k = true -> kin (m_explored s') k = true) ->
  (left_of g l s' <= left_of g l s)%nat.
Proof.
  clear. intros g l s s' H. induction l as [|k l IH]; [apply le_n|]. rewrite !left_cons.
  specialize (H k). destruct (kin (m_explored s) k), (kin (m_explored s') k); lia.
Qed.

Lemma left_take : forall g l s s' k, (forall k, kin (m_explored s) k = true -> kin (m_explored s') k = true) ->
  In k l -> kin (m_explored s) k = false -> kin (m_explored s') k = true ->
  (left_of g l s' + g k <= left_of g l s)%nat.
Proof.
  clear. intros g l s s' k H K A B. induction l as [|x l IH]; [destruct K|]. rewrite !left_cons.
  destruct K as [->|K].
  - rewrite A, B. pose proof (left_less g l s s' H). lia.
  - specialize (IH K). pose proof (H x). destruct (kin (m_explored s) x), (kin (m_explored s') x); lia.
Qed.

Lemma dir_no_fuel : forall now P p l l0, In p P -> f_type p = TMft -> read_dir (fd_repo (f_desc p)) = Some l0 -> incl l l0 ->
  forall s, RInv now P s -> dir_loop p l s <> VFuel.
Proof.
  intros now P p l l0 PP PT RD. induction l as [|e l IH]; intros IN s M; cbn [Repo.dir_loop]; [discriminate|].
  assert (IN' : incl l l0) by (intros x K; apply IN; now right).
  destruct (de_dir e) eqn:DD; [auto|]. destruct (de_data e) as [raw|] eqn:DA; [|discriminate].
  destruct (ber2der raw) as [d| | |] eqn:BD; try discriminate.
  2:{ apply ber2der_terminates in BD; [contradiction|]. eapply dir_octets; eauto. apply IN. now left. }
  set (s0 := mkM (m_v s) (m_queue s) (m_explored s) (m_unique s) (m_rop s) (S (m_next s)) (m_tick s)).
  assert (M0 : RInv now P s0).
  { eapply rinv_more; [exact M|apply incl_refl|reflexivity|apply incl_refl]. }
  set (f := dir_file p (m_next s) (de_name e)).
  destruct (add false f d s0) as [s1| |] eqn:E; cbn [vbind]; [|discriminate|].
  - destruct (type_spec (de_name e)) as (T1 & T2 & T3 & T4 & T5).
    assert (HA : handed P f d).
    { right. exists p, l0, e, raw. repeat split; auto; try apply T1; try apply T2; try apply T3; try apply T4. apply IN. now left. }
    destruct (rinv_add false now P s0 f d s1 M0 HA) as (A & _); auto.
    { intros K. discriminate K. }
    { intros K. exfalso. apply T5. exact K. }
  - exfalso. revert E. apply (explore_add_no_fuel sig_ok crl_sig_ok dec_tal dec_cert dec_roa dec_mft dec_crl hex_sha1 false (anchor P)), (ri_anch _ _ _ M0).
Qed.

Lemma file_no_fuel : forall now P s f, RInv now P s -> In f P -> explore_file f s <> VFuel.
Proof. intros now P s f M _. eapply file_ends; [exact octets|exact (ri_anch _ _ _ M)]. Qed.

Lemma repo_ends : forall now fuel P s, RInv now P s ->
  (length (m_queue s) + left_of found keys s + left_of dirs dnames s <= fuel)%nat -> repo_explore fuel s <> VFuel.
Proof.
  intros now. induction fuel as [|fuel IH]; intros P s M W; cbn [Repo.repo_explore]; destruct (m_queue s) as [|f q] eqn:Q;
    try discriminate; try (cbn in W; lia).
  cbn [length] in W.
  assert (ST : repo_iter s <> VFuel /\ forall s1, repo_iter s = VRet s1 ->
     (length (m_queue s1) + left_of found keys s1 + left_of dirs dnames s1 <= fuel)%nat).
  { unfold Repo.repo_iter. rewrite Q.
    set (s0 := mkM (m_v s) q (m_explored s) (m_unique s) (m_rop s) (m_next s) (S (m_tick s))).
    assert (M0 : RInv now (P ++ [f]) s0).
    { eapply rinv_more; [exact M|intros x K; apply in_or_app; auto|reflexivity|].
      cbn [s0 m_queue]. rewrite Q, <- app_assoc. apply incl_refl. }
    assert (FP : In f (P ++ [f])) by (apply in_or_app; right; now left).
    assert (L1 : left_of found keys s0 = left_of found keys s) by reflexivity.
    assert (L2 : left_of dirs dnames s0 = left_of dirs dnames s) by reflexivity.
    assert (LQ : m_queue s0 = q) by reflexivity. clearbody s0.
    destruct (is_mft (f_type f)) eqn:FT.
    - assert (FM : f_type f = TMft) by (destruct (f_type f); auto; discriminate). split.
      + unfold Repo.explore_repository. destruct (kin (m_explored s0) (fd_repo (f_desc f))); [discriminate|].
        destruct (read_dir (fd_repo (f_desc f))) as [l|] eqn:RD; [|discriminate].
        destruct (dir_loop f l s0) eqn:E; cbn [vbind]; try discriminate.
        exfalso. revert E. eapply dir_no_fuel; eauto. apply incl_refl.
      + intros s1 E. destruct (rinv_repository _ _ _ _ _ M0 FP FM E) as (_ & MO & [C|(C1 & C2 & C3 & C4)]);
          pose proof (left_less found keys _ _ MO).
        * pose proof (left_less dirs dnames _ _ MO). rewrite LQ in C. lia.
        * pose proof (left_take dirs dnames _ _ _ MO (all_dirs _ C3) C1 C2). rewrite LQ in C4. lia.
    - split; [eapply file_no_fuel; eauto|].
      intros s1 E. destruct (rinv_file _ _ _ _ _ M0 FP E) as (_ & MO & [C|(C1 & C2 & C3 & C4)]);
        pose proof (left_less dirs dnames _ _ MO).
      + pose proof (left_less found keys _ _ MO). rewrite LQ in C. lia.
      + pose proof (left_take found keys _ _ _ MO (all_keys _ C3) C1 C2). rewrite LQ in C4. lia. }
  destruct ST as (NF & ST). destruct (repo_iter s) as [s1| |] eqn:E; cbn [vbind]; [|discriminate|congruence].
  specialize (IH (P ++ [f]) s1 (rinv_step _ _ _ _ _ _ M Q E) (ST _ eq_refl)).
  destruct (repo_explore fuel s1) as [(s2 & n)| |]; cbn [vbind]; congruence.
Qed.

Lemma repo_total : forall now fuel, (forall x, In x init -> fd_trust x = false) ->
  (length init + list_sum (map found keys) + list_sum (map dirs dnames) <= fuel)%nat ->
  repo_explore fuel (init_mgr now init) <> VFuel.
Proof.
  intros now fuel U W. apply (repo_ends now fuel [] _ (rinv_init now U)).
  assert (L : (length (m_queue (init_mgr now init)) <= length init)%nat).
  { unfold init_mgr. eapply Nat.le_trans; [apply queue_length|]. cbn [m_queue length]. rewrite number_files_length. lia. }
  assert (WE : forall g l, (left_of g l (init_mgr now init) <= list_sum (map g l))%nat).
  { clear. intros g l. induction l as [|k l IH]; [apply le_n|]. rewrite left_cons. cbn [map].
    change (list_sum (g k :: map g l)) with (g k + list_sum (map g l))%nat. destruct (kin _ _); lia. }
  pose proof (WE found keys). pose proof (WE dirs dnames). lia.
Qed.
End Ends.

(** * Nothing is found where the addresses are not local directories *)
Section Nothing.
Hypothesis no_dir : forall k raw d c x, disk k = Some raw -> ber2der raw = BOk d -> dec_cert d = Some c ->
  In x (extract_path_cert c) -> read_dir (fd_repo x) = None.
Hypothesis start : forall x, In x init -> fd_type x = TTal /\ fd_trust x = false.

(** Files in the queue are locators, the certificates they name, and manifests
    and lists named by these. *)
Definition near (f : pkifile) : Prop :=
  f_type f = TTal \/
  (exists p, f_parent f = Some p /\ f_type p = TTal /\ f_type f = TCer) \/
  (f_type f = TMft /\ read_dir (fd_repo (f_desc f)) = None) \/ f_type f = TCrl.

Definition op_near (P : list pkifile) (o : op) : Prop :=
  match o with DoResource f d => In f P /\ near f /\ f_type f <> TMft /\ exists raw, holds f raw d | DoInvalidate _ => True | _ => False end.

Lemma near_step : forall now P s f q s', RInv now P s -> (forall x, In x (P ++ m_queue s) -> near x) ->
  (exists ops, Forall (op_near P) ops /\ run ops (new_validator now) = VRet (m_v s)) ->
  m_queue s = f :: q -> repo_iter s = VRet s' ->
  (forall x, In x ((P ++ [f]) ++ m_queue s') -> near x) /\
  exists ops, Forall (op_near (P ++ [f])) ops /\ run ops (new_validator now) = VRet (m_v s').
Proof.
  intros now P s f q s' M N (ops & F & R) Q H.
  assert (FN : near f) by (apply N; rewrite Q; apply in_or_app; right; now left).
  assert (F' : Forall (op_near (P ++ [f])) ops).
  { eapply Forall_impl; [|exact F]. intros [] K; cbn in *; auto. destruct K as (K1 & K2). split; auto. apply in_or_app. auto. }
  assert (N' : forall l, (forall x, In x l -> In x q \/ near x) -> forall x, In x ((P ++ [f]) ++ l) -> near x).
  { intros l L x K. apply in_app_or in K. destruct K as [K|K].
    - apply N. rewrite Q. apply in_app_or in K. apply in_or_app. destruct K as [K|[<-|[]]]; [auto|right; now left].
    - destruct (L _ K) as [K'|K']; auto. apply N. rewrite Q. apply in_or_app. right. now right. }
  assert (FP : In f (P ++ [f])) by (apply in_or_app; right; now left).
  unfold Repo.repo_iter in H. rewrite Q in H.
  set (s0 := mkM (m_v s) q (m_explored s) (m_unique s) (m_rop s) (m_next s) (S (m_tick s))) in *.
  assert (M0 : RInv now (P ++ [f]) s0).
  { eapply rinv_more; [exact M|intros x K; apply in_or_app; auto|reflexivity|].
    cbn [s0 m_queue]. rewrite Q, <- app_assoc. apply incl_refl. }
  assert (Q0 : m_queue s0 = q) by reflexivity. assert (R0 : run ops (new_validator now) = VRet (m_v s0)) by exact R.
  clearbody s0.
  destruct (is_mft (f_type f)) eqn:FT.
  { assert (FM : f_type f = TMft) by (destruct (f_type f); auto; discriminate).
    assert (RD : read_dir (fd_repo (f_desc f)) = None).
    { destruct FN as [K|[(p & _ & _ & K)|[(_ & K)|K]]]; congruence. }
    unfold Repo.explore_repository in H. rewrite RD in H.
    assert (S' : m_v s' = m_v s0 /\ m_queue s' = m_queue s0) by (destruct (kin _ _); inversion H; auto).
    destruct S' as (S1 & S2). rewrite S1, S2, Q0. split; [apply N'; auto|]. exists ops. auto. }
  assert (I : forall s, RInv now (P ++ [f]) s -> ValidatorInv.Inv sig_ok (fun _ => True) (m_v s)) by (intros x Y; eapply inv_mono; [|apply (ri_anch _ _ _ Y)]; auto).
  assert (INV : forall s1 v, run ops (new_validator now) = VRet (m_v s1) -> invals (m_v s1) v ->
     exists ops, Forall (op_near (P ++ [f])) ops /\ run ops (new_validator now) = VRet v).
  { intros s1 v R1 (o2 & F2 & R2). exists (ops ++ o2). split; [|rewrite run_app, R1; exact R2].
    apply Forall_app. split; auto. eapply Forall_impl; [|exact F2]. intros [] K; cbn in *; tauto. }
  unfold Explore.explore_file in H. vb H.
  assert (BAD : forall err s2, explore_bad strict_manifests err f s0 = VRet s2 -> s' = s2 ->
    (forall x, In x ((P ++ [f]) ++ m_queue s') -> near x) /\
    exists ops, Forall (op_near (P ++ [f])) ops /\ run ops (new_validator now) = VRet (m_v s')).
  { intros err s2 E2 ->.
    apply (explore_bad_spec sig_ok crl_sig_ok dec_tal dec_cert dec_roa dec_mft dec_crl hex_sha1 strict_manifests) in E2; auto.
    destruct E2 as (E2 & IV & _). split; [|eapply INV; eauto]. rewrite E2. cbn [set_v m_queue]. rewrite Q0. apply N'. auto. }
  unfold get_next_file in E.
  destruct (kin (m_explored s0) (compute_path f)); [inversion E; subst y; eapply BAD; eauto|].
  apply (get_file_spec disk synced sha256) in E. destruct y as [| |d sha]; try (eapply BAD; eauto; fail).
  destruct E as (raw & HD & ->). vb H. destruct y as (s1 & ok).
  apply (check_listed_spec sig_ok crl_sig_ok dec_tal dec_cert dec_roa dec_mft dec_crl hex_sha1) in E; auto.
  destruct E as (S1 & IV & _). assert (M1 : RInv now (P ++ [f]) s1) by (rewrite S1; now apply rinv_invals).
  assert (Q1 : m_queue s1 = q) by (rewrite S1; exact Q0).
  destruct (INV _ _ R0 IV) as (ops1 & F1 & R1).
  destruct ok.
  - destruct (rinv_add add_invalid now (P ++ [f]) s1 f d s' M1) as (_ & _ & _ & D); eauto; [left; eauto|].
    rewrite Q1 in D. split.
    + apply N'. intros x K. destruct (D _ K) as [K'|(K1 & K2)]; auto. right. destruct (f_type f) eqn:FTY; try contradiction.
      * destruct K2 as (c & DC & K2). destruct HD as (HD1 & HD2). rewrite FTY in HD2. cbn [is_tal] in HD2.
        assert (RD := no_dir _ _ _ _ _ HD1 HD2 DC K2). right. right. unfold extract_path_cert in K2.
        apply in_app_or in K2. destruct K2 as [K2|K2].
        -- apply in_map_iff in K2. destruct K2 as (u & K2 & _). right. unfold f_type. rewrite <- K2. reflexivity.
        -- left. split; auto. destruct (last_sia _ _ _); [|destruct K2]. destruct K2 as [K2|[]]. unfold f_type. rewrite <- K2. reflexivity.
      * discriminate FT.
      * destruct K2 as (t & _ & K2). right. left. exists f. repeat split; auto. unfold f_type. rewrite K2. reflexivity.
    + unfold Explore.explore_add in H. vb H. destruct y as (v & ((valid & subs) & oa) & err).
      exists (ops1 ++ [DoResource f d]). split.
      * apply Forall_app. split; auto. constructor; [|constructor]. split; auto. split; auto. split; [|exists raw; exact HD].
        intros K. rewrite K in FT. discriminate FT.
      * rewrite run_app, R1. cbn [Validator.run Validator.step vbind]. unfold vfst. rewrite E. cbn [vbind].
        destruct (add_invalid || valid); inversion H; subst s'; [|reflexivity]. cbn [m_v].
        match goal with |- context [put_files ?l ?z] => destruct (put_files_spec l z) as (added & PE & _) end.
        rewrite PE. reflexivity.
  - apply (explore_bad_spec sig_ok crl_sig_ok dec_tal dec_cert dec_roa dec_mft dec_crl hex_sha1 strict_manifests) in H; auto.
    destruct H as (E2 & (o3 & F3 & R3) & _). split; [rewrite E2; cbn [set_v m_queue]; rewrite Q1; apply N'; auto|].
    exists (ops1 ++ o3). split; [|rewrite run_app, R1; exact R3].
    apply Forall_app. split; auto. eapply Forall_impl; [|exact F3]. intros [] K; cbn in *; tauto.
Qed.

Lemma near_reach : forall now P s, explores repo_iter (init_mgr now init) P s ->
  exists ops, Forall (op_near P) ops /\ run ops (new_validator now) = VRet (m_v s).
Proof.
  intros now P s H. assert (M := rinv_init now (fun x K => proj2 (start x K))).
  assert (N : forall x, In x ([] ++ m_queue (init_mgr now init)) -> near x).
  { unfold init_mgr. set (s0 := mkM _ _ _ _ _ _ _).
    destruct (put_files_spec (number_files 0 None init) s0) as (added & PE & PIN & _). rewrite PE. cbn [m_queue app].
    subst s0. cbn [m_queue app]. intros x K. apply PIN, number_files_in in K. destruct K as (_ & K). left. now apply start. }
  assert (R : exists ops, Forall (op_near []) ops /\ run ops (new_validator now) = VRet (m_v (init_mgr now init))).
  { exists []. split; auto. unfold init_mgr. match goal with |- context [put_files ?l ?z] => destruct (put_files_spec l z) as (added & PE & _) end.
    rewrite PE. reflexivity. }
  change P with ([] ++ P). revert M N R. generalize (@nil pkifile).
  induction H as [s|s f q s1 l s2 Q E H IH]; intros P0 M N R; [now rewrite app_nil_r|].
  change (f :: l) with ([f] ++ l). rewrite app_assoc.
  destruct (near_step _ _ _ _ _ _ M N R Q E) as (N1 & R1).
  apply IH; auto. eapply rinv_step; eauto.
Qed.

(** Only trust anchors are valid, and no ROA is. *)
Lemma nothing_found : forall now P s, explores repo_iter (init_mgr now init) P s ->
  (forall x, ~ valid_roa (m_v s) x) /\
  (forall c, valid_cert (m_v s) c -> exists f p, In f P /\ f_type f = TCer /\ f_parent f = Some p /\ f_type p = TTal /\ contents disk dec_cert f c).
Proof.
  intros now P s H. destruct (near_reach _ _ _ H) as (ops & F & R). rewrite Forall_forall in F.
  assert (A : Forall (read_from dec_tal dec_cert dec_roa dec_mft dec_crl ops) (map r_obj (v_heap (m_v s)))).
  { eapply run_objs; [| | |exact R]; [|auto|constructor].
    apply Forall_forall. intros x X. specialize (F _ X). destruct x; cbn; auto. }
  rewrite Forall_forall in A. split.
  - intros x (a & _ & r & NR & O). assert (IN : In (ORoa x) (map r_obj (v_heap (m_v s)))) by (rewrite <- O; apply in_map, (nth_error_In _ _ NR)).
    destruct (A _ IN) as (f & d & D & T & _). destruct (F _ D) as (_ & [K|[(p & _ & _ & K)|[(K & _)|K]]] & _); congruence.
  - intros c (a & _ & r & NR & O). assert (IN : In (OCert c) (map r_obj (v_heap (m_v s)))) by (rewrite <- O; apply in_map, (nth_error_In _ _ NR)).
    destruct (A _ IN) as (f & d & D & B). destruct (F _ D) as (FP & K & NM & raw & HD). unfold brings in B.
    destruct K as [K|[(p & K1 & K2 & K)|[(K & _)|K]]]; rewrite K in B; try contradiction; try congruence.
    exists f, p. repeat split; auto. exists raw, d. auto.
Qed.
End Nothing.
End Repo.
