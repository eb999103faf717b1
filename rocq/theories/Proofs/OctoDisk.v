(** Downloads of the main loop. *)
From Coq Require Import String Lia Permutation.
From Verif.Model Require Import Base Str Tal TalText Paths Validator Cache Rrdp Pool Octo.
From Verif.Spec Require Import PathSpec RrdpSpec OctoSpec.
From Verif.Proofs Require Import StrProofs PathProofs RrdpProofs RrdpCrash CacheProofs CacheThm CacheEvents PoolProofs OctoProofs.

Section Disk.
Variables (cwd : loc) (base : bytes).
Hypothesis Hbase : base <> [].
Let B := resolve cwd base.

(** ** rsync *)

Lemma dest_walk : forall h m, ~ In slash h -> ~ In slash m ->
  rsync_dest cwd base (domain_of h ++ m) = Some (walk (walk B h) m).
Proof.
  intros h m Hh Hm. unfold rsync_dest, extract_file.
  replace (domain_of h ++ m) with (rsync_scheme ++ h ++ [slash] ++ m) by (unfold domain_of; rewrite !app_assoc_reverse; reflexivity).
  assert (P : is_rsync_url (rsync_scheme ++ h ++ [slash] ++ m) = true) by (apply has_prefix_spec; eexists; reflexivity).
  rewrite P, trim_scheme. f_equal. rewrite resolve_join by exact Hbase. cbn [app].
  rewrite split_app_sep, !split_single by assumption. reflexivity.
Qed.

Lemma name_plain : forall c, name c -> plain_comp c = true.
Proof.
  intros c (N1 & N2 & N3 & _). unfold plain_comp.
  apply beq_neq in N1, N2, N3. rewrite N1, N2, N3. reflexivity.
Qed.

Theorem rsync_own_place : forall h m, name h -> name m ->
  rsync_dest cwd base (domain_of h ++ m) = Some (B ++ [h; m]).
Proof.
  intros h m Hh Hm. rewrite dest_walk by (apply Hh || apply Hm).
  rewrite (walk_name _ _ (name_plain _ Hh)), (walk_name _ _ (name_plain _ Hm)), app_assoc_reverse. reflexivity.
Qed.

(** The module [".."]: the whole cache. *)
Theorem rsync_whole_cache : forall h, name h ->
  rsync_dest cwd base (domain_of h ++ dotdot) = Some B.
Proof.
  intros h Hh. rewrite dest_walk by (apply Hh || (cbn; intuition discriminate)).
  rewrite (walk_name _ _ (name_plain _ Hh)). unfold walk. cbn [beq]. 
  change (beq dotdot [] || beq dotdot dot) with false. cbv iota.
  change (beq dotdot dotdot) with true. cbv iota. rewrite removelast_last. reflexivity.
Qed.

(** The host [".."]: beside the cache. *)
Theorem rsync_outside : forall m, name m ->
  rsync_dest cwd base (domain_of dotdot ++ m) = Some (removelast B ++ [m]).
Proof.
  intros m Hm. rewrite dest_walk by (apply Hm || (cbn; intuition discriminate)).
  rewrite (walk_name _ _ (name_plain _ Hm)). reflexivity.
Qed.

(** ** Root certificates *)

Lemma exec_keeps_dir : forall ops s l, s l = Some Dir -> fst (exec ops s) l = Some Dir.
Proof.
  unfold exec. induction ops as [|o ops IH]; intros s l H; cbn [exec_with]; [exact H|].
  assert (G : fst (step o s) l = Some Dir).
  { destruct o; cbn [step]; try exact H.
    - destruct (s l0) as [[|]|]; cbn [fst]; try exact H;
      (destruct (loc_dec l l0) as [->|N]; [apply fset_eq|rewrite fset_neq by exact N; exact H]).
    - destruct (s l0) as [[|]|] eqn:E; cbn [fst]; try exact H;
      (destruct (loc_dec l l0) as [->|N]; [congruence|rewrite fset_neq by exact N; exact H]). }
  destruct (step o s) as [s' [| |]]; cbn [fst] in G; auto.
Qed.

(** Once rsync was tried for a root certificate its place is a directory. *)
Theorem mkdir_place : forall f s s', rooted_fs s ->
  rsync_mkdir cwd base (rsync_scheme ++ f) s = (s', VOk) ->
  s' (resolve cwd (path_join base f)) = Some Dir.
Proof.
  intros f s s' R E. unfold rsync_mkdir, rsync_dest, extract_file in E.
  assert (P : is_rsync_url (rsync_scheme ++ f) = true) by (apply has_prefix_spec; eexists; reflexivity).
  rewrite P, trim_scheme in E.
  destruct (exec (map ODir (prefixes (resolve cwd (path_join base f)))) s) as [s1 [| |]] eqn:X; [|discriminate|discriminate].
  injection E as <-. destruct (resolve cwd (path_join base f)) as [|c l] eqn:L.
  - pose proof (exec_keeps_dir (map ODir (prefixes [])) s [] R) as K. rewrite X in K. exact K.
  - apply (exec_dirs_made _ _ _ X). apply prefixes_in. split; [discriminate|]. exists []. symmetry. apply app_nil_r.
Qed.

(** From then on no write to it succeeds, and it is never a file. *)
Theorem write_blocked : forall f data s, rooted_fs s -> s (resolve cwd (path_join base f)) = Some Dir ->
  snd (exec (write_ops cwd base (rsync_scheme ++ f) data) s) <> VOk.
Proof.
  intros f data s R H E.
  destruct (exec (write_ops cwd base (rsync_scheme ++ f) data) s) as [s' v] eqn:X. cbn [snd] in E. subst v.
  pose proof (exec_keeps_dir (write_ops cwd base (rsync_scheme ++ f) data) s _ H) as K. rewrite X in K. cbn [fst] in K.
  destruct (write_cases cwd base Hbase _ _ _ _ _ R X) as [(G & _)|(f' & d & x & s1 & v1 & Ef & Es & X1 & C)].
  - assert (P : is_rsync_url (rsync_scheme ++ f) = true) by (apply has_prefix_spec; eexists; reflexivity). congruence.
  - apply app_inv_head in Ef. subst f'.
    rewrite (write_ops_shape cwd base Hbase f d x data Es), exec_app in X.
    fold B in X, X1. rewrite X1 in X. destruct v1; [|discriminate|discriminate].
    destruct (bad_path f); [discriminate|]. unfold exec in X. cbn [exec_with step] in X.
    assert (L : walk (fold_left walk d B) x = resolve cwd (path_join base f)).
    { rewrite resolve_join by exact Hbase. rewrite Es, fold_walk_app. reflexivity. }
    rewrite L in X. 
    pose proof (exec_keeps_dir (map ODir (prefixes (fold_left walk d B))) s _ H) as K1. rewrite X1 in K1. cbn [fst] in K1.
    rewrite K1 in X. discriminate.
Qed.

Lemma rooted_exec : forall ops s, rooted_fs s -> rooted_fs (fst (exec ops s)).
Proof. intros ops s R. exact (exec_keeps_dir ops s [] R). Qed.

Lemma fetch_uris_blocked : forall get f uris s, rooted_fs s -> s (resolve cwd (path_join base f)) = Some Dir ->
  snd (fetch_uris cwd base get (rsync_scheme ++ f) uris s) <> VOk.
Proof.
  intros get f. induction uris as [|u uris IH]; intros s R H; cbn [fetch_uris]; [discriminate|].
  destruct (is_http u); [|apply IH; assumption]. destruct (get u) as [d|]; [|apply IH; assumption].
  pose proof (write_blocked f d s R H) as W.
  pose proof (rooted_exec (write_ops cwd base (rsync_scheme ++ f) d) s R) as R'.
  pose proof (exec_keeps_dir (write_ops cwd base (rsync_scheme ++ f) d) s _ H) as H'.
  destruct (exec (write_ops cwd base (rsync_scheme ++ f) d) s) as [s1 v]. cbn [fst snd] in *.
  destruct v; [congruence|apply IH; assumption|discriminate].
Qed.

Theorem root_lost : forall failover sha get t f s s1 ops v s2,
  get_rsync_uri sha t = rsync_scheme ++ f -> rooted_fs s ->
  rsync_mkdir cwd base (get_rsync_uri sha t) s = (s1, VOk) ->
  exec ops s1 = (s2, v) ->
  (forall x, s2 (resolve cwd (path_join base f)) <> Some (File x)) /\
  snd (fst (fetch_tal failover sha cwd base get t s2)) <> VOk.
Proof.
  intros failover sha get t f s s1 ops v s2 U R M E. rewrite U in M.
  pose proof (mkdir_place _ _ _ R M) as D.
  assert (R1 : rooted_fs s1).
  { unfold rsync_mkdir in M. destruct (rsync_dest cwd base (rsync_scheme ++ f)) as [l|]; [|discriminate].
    pose proof (rooted_exec (map ODir (prefixes l)) s R) as K.
    destruct (exec (map ODir (prefixes l)) s) as [s' [| |]]; try discriminate; injection M as <-; exact K. }
  pose proof (exec_keeps_dir ops s1 _ D) as D2. rewrite E in D2. cbn [fst] in D2.
  pose proof (rooted_exec ops s1 R1) as R2. rewrite E in R2. cbn [fst] in R2.
  split; [intros x G; rewrite D2 in G; discriminate|].
  unfold fetch_tal. rewrite U.
  pose proof (fetch_uris_blocked get f (t_uris t) s2 R2 D2) as W.
  destruct (fetch_uris cwd base get (rsync_scheme ++ f) (t_uris t) s2) as [s3 [| |]]; cbn [fst snd] in *; [congruence|discriminate|discriminate].
Qed.

(** A successful download is what will be read. *)
Lemma fetch_uris_ok : forall get place uris s s', rooted_fs s ->
  (forall f, place = rsync_scheme ++ f -> contains f rsync_scheme = false) ->
  fetch_uris cwd base get place uris s = (s', VOk) ->
  exists u d, In u uris /\ is_http u = true /\ get u = Some d /\
    s' (resolve cwd (get_local_path (octo_map base) place)) = Some (File d).
Proof.
  intros get place uris. induction uris as [|u uris IH]; intros s s' R C E; cbn [fetch_uris] in E; [discriminate|].
  assert (K : forall s0, rooted_fs s0 -> fetch_uris cwd base get place uris s0 = (s', VOk) ->
    exists u0 d, In u0 (u :: uris) /\ is_http u0 = true /\ get u0 = Some d /\
    s' (resolve cwd (get_local_path (octo_map base) place)) = Some (File d)).
  { intros s0 R0 E0. destruct (IH s0 s' R0 C E0) as (u0 & d & G1 & G2). exists u0, d. split; [right; exact G1|exact G2]. }
  destruct (is_http u) eqn:H; [|exact (K _ R E)].
  destruct (get u) as [d|] eqn:G; [|exact (K _ R E)].
  destruct (exec (write_ops cwd base place d) s) as [s1 v] eqn:X.
  pose proof (rooted_exec (write_ops cwd base place d) s R) as R1. rewrite X in R1.
  destruct v; [|exact (K _ R1 E)|discriminate]. injection E as <-.
  exists u, d. split; [left; reflexivity|]. split; [exact H|]. split; [exact G|].
  exact (read_after_write cwd base Hbase place d s s1 R C X).
Qed.

Theorem root_downloaded : forall failover sha get t s s' j, rooted_fs s ->
  (forall f, get_rsync_uri sha t = rsync_scheme ++ f -> contains f rsync_scheme = false) ->
  fetch_tal failover sha cwd base get t s = (s', VOk, j) ->
  j = None /\ exists u d, In u (t_uris t) /\ is_http u = true /\ get u = Some d /\
    s' (resolve cwd (get_local_path (octo_map base) (get_rsync_uri sha t))) = Some (File d).
Proof.
  intros failover sha get t s s' j R C E. unfold fetch_tal in E.
  destruct (fetch_uris cwd base get (get_rsync_uri sha t) (t_uris t) s) as [s1 [| |]] eqn:X; try discriminate.
  injection E as <- <-. split; [reflexivity|]. eapply fetch_uris_ok; eauto.
Qed.
End Disk.

(** ** Two servers for one module *)

Section Shared.
Variable failover : bool.
Variable fetched : bytes -> bytes -> Z -> rresult -> Prop.
Variable workers : nat.

Theorem info_by_own_servers : forall o o', round failover fetched workers o o' ->
  exists info, forall k, o_info o' k = info k \/ exists p a b, o_fetch o p = Some k /\ o_info o' k = Some (a, b).
Proof.
  intros o o' H. destruct H as [o info jobs p tals sias [_ L] S M].
  exists info. intros k. cbn [o_info].
  assert (I : forall l x, o_info (register_all l x) = o_info x).
  { unfold register_all. induction l as [|s l IH]; intros x; cbn [fold_left]; [reflexivity|]. rewrite IH.
    destruct (register_cases s x) as [[-> _]|(m & d & _ & [[_ ->]|(q & _ & _ & ->)])]; reflexivity. }
  rewrite I. cbn [o_info].
  destruct (round_jobs failover fetched workers jobs (o_jobs o) info p S M) as [P _].
  destruct (round_info failover fetched workers jobs (o_jobs o) info p S M k) as [[E _]|(q & a & b & E & G)].
  - left. exact E.
  - right. exists q, a, b. split; [|exact E]. apply L.
    eapply Permutation_in; [exact P|]. change (q, k) with (fst ((q, k), ROk a b)). apply in_map. exact G.
Qed.

End Shared.

(** One worker, one job after the other. *)
Lemma ps_front : forall Job Loc St begin work (s s1 s2 : pool Job Loc St),
  pstep Job Loc St begin work s s1 -> psteps Job Loc St begin work s1 s2 -> psteps Job Loc St begin work s s2.
Proof.
  intros Job Loc St begin work s s1 s2 H G. induction G as [|s1 s2 s3 G IH K].
  - eapply ps_more; [apply ps_refl|exact H].
  - eapply ps_more; [apply IH; exact H|exact K].
Qed.

Section OneWorker.
Variable failover : bool.
Variable fetched : bytes -> bytes -> Z -> rresult -> Prop.
Notation run := (psteps rjob rphase rshared (fun _ => RBegin) (rwork failover fetched)).

Definition after_job (st : rshared) (j : rjob) (a : bytes) (b : Z) : rshared :=
  mkRShared (kdel (r_jobs st) (snd j)) (kset (r_info st) (snd j) (a, b)) (r_log st ++ [(j, ROk a b)]).

Lemma job_run : forall j js st dn a b s, (forall x y, fetched (fst j) x y (ROk a b)) ->
  run (mkPool (Sending js) [Idle] 1 (after_job st j a b) (dn ++ [j])) s ->
  run (mkPool (Sending (j :: js)) [Idle] 1 st dn) s.
Proof.
  intros j js st dn a b s F H.
  eapply ps_front; [apply (st_send rjob rphase rshared (fun _ => RBegin) (rwork failover fetched) j js [] [])|]. cbn [app].
  eapply ps_front; [eapply (st_work rjob rphase rshared (fun _ => RBegin) (rwork failover fetched) _ [] j _ _ []); apply rw_begin|]. cbn [app].
  eapply ps_front; [eapply (st_work rjob rphase rshared (fun _ => RBegin) (rwork failover fetched) _ [] j _ _ []); apply rw_ok; apply F|]. cbn [app].
  eapply ps_front; [eapply (st_finish rjob rphase rshared (fun _ => RBegin) (rwork failover fetched) _ [] j _ []); apply rw_store|]. cbn [app].
  exact H.
Qed.

Lemma end_run : forall st dn, run (mkPool (Sending []) [Idle] 1 st dn) (mkPool Returned [Gone] 0 st dn).
Proof.
  intros st dn. eapply ps_front; [apply st_close|].
  eapply ps_front; [apply (st_leave rjob rphase rshared (fun _ => RBegin) (rwork failover fetched) [] [])|]. cbn [app].
  eapply ps_front; [apply st_return|]. apply ps_refl.
Qed.
End OneWorker.

(** The certificates: the one of the victim and that of another authority. *)
Definition both (h m victim other : bytes) : list (list (sia_method * bytes)) :=
  [ [(SiaRepo, domain_of h ++ m ++ str "/"); (SiaNotify, victim)];
    [(SiaRepo, domain_of h ++ m ++ str "/"); (SiaNotify, other)] ].

Lemma module_found : forall h m, ~ In slash h -> ~ In slash m ->
  domain_module (domain_of h ++ m ++ str "/") = Some (domain_of h ++ m, domain_of h).
Proof.
  intros h m Hh Hm. unfold domain_module.
  replace (domain_of h ++ m ++ str "/") with (rsync_scheme ++ h ++ [slash] ++ m ++ [slash] ++ [])
    by (unfold domain_of; rewrite !app_assoc_reverse; reflexivity).
  assert (L : (8 <? length (rsync_scheme ++ h ++ [slash] ++ m ++ [slash] ++ []))%nat = true).
  { apply Nat.ltb_lt. rewrite !app_length. change (length rsync_scheme) with 8%nat. cbn [length]. lia. }
  rewrite L.
  assert (K : skipn 8 (rsync_scheme ++ h ++ [slash] ++ m ++ [slash] ++ []) = h ++ slash :: m ++ slash :: []) by reflexivity.
  rewrite K. rewrite split_app_sep, split_single by exact Hh. cbn [app].
  rewrite split_app_sep, split_single by exact Hm. cbn [app].
  unfold domain_of. rewrite !app_assoc_reverse. reflexivity.
Qed.

Theorem shared_module : forall h m victim other, ~ In slash h -> ~ In slash m -> victim <> other ->
  let o := register_all (both h m victim other) octo_empty in
  listing (o_fetch o) [(victim, domain_of h ++ m); (other, domain_of h ++ m)] /\
  o_domain o victim = Some (domain_of h) /\ o_domain o other = Some (domain_of h).
Proof.
  intros h m victim other Hh Hm N o.
  assert (E : o_fetch o = kset (kset kempty victim (domain_of h ++ m)) other (domain_of h ++ m) /\
              o_domain o = kset (kset kempty victim (domain_of h)) other (domain_of h)).
  { subst o. unfold register_all, both. cbn [fold_left].
    set (o1 := register [(SiaRepo, domain_of h ++ m ++ str "/"); (SiaNotify, victim)] octo_empty).
    assert (E1 : o1 = with_job (with_server octo_empty victim (domain_of h ++ m) (domain_of h)) (domain_of h ++ m) victim).
    { unfold o1, register. cbn [first_sia is_sia_repo is_sia_notify odef].
      rewrite (module_found h m Hh Hm). reflexivity. }
    rewrite E1. unfold register. cbn [first_sia is_sia_repo is_sia_notify odef].
    rewrite (module_found h m Hh Hm). unfold with_job, with_server. cbn [o_domain o_fetch octo_empty].
    rewrite kset_other by congruence. split; reflexivity. }
  destruct E as [E1 E2]. rewrite E1, E2.
  split; [|split; [rewrite kset_other by exact N; apply kset_same|apply kset_same]].
  split.
  - cbn [map fst]. constructor; [intros [G|[]]; congruence|]. constructor; [intros []|constructor].
  - intros k a. cbn [In]. destruct (beq k other) eqn:K1.
    + apply beq_eq in K1. subst k. rewrite kset_same. split.
      * intros [G|[G|[]]]; inversion G; subst; reflexivity.
      * intros G. right. left. injection G as <-. reflexivity.
    + assert (K2 : k <> other) by (intros ->; rewrite beq_refl in K1; discriminate).
      rewrite kset_other by exact K2. destruct (beq k victim) eqn:K3.
      * apply beq_eq in K3. subst k. rewrite kset_same. split.
        -- intros [G|[G|[]]]; inversion G; subst; try reflexivity; congruence.
        -- intros G. left. injection G as <-. reflexivity.
      * assert (K4 : k <> victim) by (intros ->; rewrite beq_refl in K3; discriminate).
        rewrite kset_other by exact K4. split; [intros [G|[G|[]]]; inversion G; subst; try reflexivity; congruence|discriminate].
Qed.

(** The other authority's server stores a high serial for the session of the
    victim's server, whose updates are then ignored and count as successes. *)
Theorem frozen : forall failover (fetched : bytes -> bytes -> Z -> rresult -> Prop) h m victim other session big a b,
  ~ In slash h -> ~ In slash m -> victim <> other ->
  (forall x y, fetched other x y (ROk session big)) -> (forall x y, fetched victim x y (ROk a b)) ->
  exists o, round failover fetched 1 (register_all (both h m victim other) octo_empty) o /\
    o_fetch o victim = Some (domain_of h ++ m) /\
    o_info o (domain_of h ++ m) = Some (session, big) /\
    forall St cb snap delta n s, plain_notif n -> plain_serial big -> big <> 0 ->
      n_session n = session -> n_serial n < big ->
      fetch_rrdp St cb snap delta (Some n) session big s = (s, Done session big).
Proof.
  intros failover fetched h m victim other session big a b Hh Hm N Fo Fv.
  destruct (shared_module h m victim other Hh Hm N) as (L & _ & _).
  set (o0 := register_all (both h m victim other) octo_empty) in *.
  set (k := domain_of h ++ m) in *.
  set (st0 := mkRShared (o_jobs o0) kempty []).
  set (st2 := after_job (after_job st0 (victim, k) a b) (other, k) session big).
  eexists. split.
  - eapply (round_intro failover fetched 1 o0 kempty [(victim, k); (other, k)] (mkPool Returned [Gone] 0 st2 ([] ++ [(victim, k)] ++ [(other, k)])) [] []);
      [exact L| |reflexivity].
    unfold pool_start. cbn [repeat]. change (Z.of_nat 1) with 1.
    eapply job_run; [intros x y; apply Fv|]. eapply job_run; [intros x y; apply Fo|]. apply end_run.
  - cbn [register_all fold_left o_fetch o_info p_st].
    split; [apply L; left; reflexivity|]. split.
    + unfold st2, after_job. cbn [r_info snd]. apply kset_same.
    + intros St cb snap delta n s P S Z1 E Lt. subst session. exact (rollback_ignored St cb snap delta n big s P S Z1 Lt).
Qed.

(** Two modules behind one address: only the last one is bound to it, so the
    rsync job of the other stays although the address was fetched. *)
Definition two_modules (h m1 m2 p : bytes) : list (list (sia_method * bytes)) :=
  [ [(SiaRepo, domain_of h ++ m1 ++ str "/"); (SiaNotify, p)];
    [(SiaRepo, domain_of h ++ m2 ++ str "/"); (SiaNotify, p)] ].

Theorem job_stays : forall failover (fetched : bytes -> bytes -> Z -> rresult -> Prop) h m1 m2 p a b,
  ~ In slash h -> ~ In slash m1 -> ~ In slash m2 -> m1 <> m2 ->
  (forall x y, fetched p x y (ROk a b)) ->
  let o := register_all (two_modules h m1 m2 p) octo_empty in
  o_jobs o (domain_of h ++ m1) = Some p /\
  exists o', round failover fetched 1 o o' /\
    o_info o' (domain_of h ++ m2) = Some (a, b) /\
    o_jobs o' (domain_of h ++ m2) = None /\
    o_jobs o' (domain_of h ++ m1) = Some p.
Proof.
  intros failover fetched h m1 m2 p a b Hh H1 H2 N F o.
  assert (Nk : domain_of h ++ m1 <> domain_of h ++ m2) by (intros G; apply app_inv_head in G; contradiction).
  assert (E : o = with_job (with_server (with_job (with_server octo_empty p (domain_of h ++ m1) (domain_of h)) (domain_of h ++ m1) p)
                p (domain_of h ++ m2) (domain_of h)) (domain_of h ++ m2) p).
  { subst o. unfold register_all, two_modules. cbn [fold_left].
    unfold register at 2. cbn [first_sia is_sia_repo is_sia_notify odef].
    rewrite (module_found h m1 Hh H1). cbn [o_domain octo_empty].
    unfold register. cbn [first_sia is_sia_repo is_sia_notify odef].
    rewrite (module_found h m2 Hh H2). cbn [o_domain octo_empty kempty].
    rewrite kset_same, beq_refl. reflexivity. }
  clearbody o. subst o. unfold with_job, with_server. cbn [o_jobs o_fetch o_domain o_info o_prev o_cur octo_empty].
  split; [rewrite kset_other by exact Nk; apply kset_same|].
  eexists. split.
  - eapply (round_intro failover fetched 1 _ kempty [(p, domain_of h ++ m2)]
      (mkPool Returned [Gone] 0 (after_job (mkRShared _ kempty []) (p, domain_of h ++ m2) a b) ([] ++ [(p, domain_of h ++ m2)])) [] []); [| |reflexivity].
    + cbn [o_fetch]. split; [cbn [map fst]; constructor; [intros []|constructor]|].
      intros k x. cbn [In]. destruct (beq k p) eqn:K.
      * apply beq_eq in K. subst k. rewrite kset_same. split; [intros [G|[]]; inversion G; subst; try reflexivity; congruence|intros G; left; injection G as <-; reflexivity].
      * assert (K2 : k <> p) by (intros ->; rewrite beq_refl in K; discriminate).
        rewrite !kset_other by exact K2. split; [intros [G|[]]; inversion G; subst; try reflexivity; congruence|discriminate].
    + unfold pool_start. cbn [repeat]. change (Z.of_nat 1) with 1.
      eapply job_run; [intros x y; apply F|]. apply end_run.
  - cbn [register_all fold_left o_info o_jobs p_st after_job r_info r_jobs snd].
    split; [apply kset_same|]. unfold kdel. rewrite beq_refl. split; [reflexivity|].
    destruct (beq (domain_of h ++ m1) (domain_of h ++ m2)) eqn:K; [apply beq_eq in K; contradiction|].
    destruct (beq (domain_of h ++ m2) (domain_of h ++ m1)) eqn:K'; [apply beq_eq in K'; congruence|].
    rewrite kset_other by exact Nk. apply kset_same.
Qed.
