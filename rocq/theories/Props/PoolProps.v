(** C39, C40: the worker pools. *)
From Coq Require Import String Lia Permutation.
From Verif.Model Require Import Base Str Paths Validator Cache Rrdp Pool Octo.
From Verif.Spec Require Import PathSpec PoolSpec OctoSpec.
From Verif.Proofs Require Import CacheThm PoolProofs OctoProofs OctoDisk.

(** C39. When the round of RRDP fetches has returned, each bound address was
    fetched once; an rsync job is left iff it was there before and every fetch
    for its module failed in a way that allows rsync, with failover on. *)
Theorem C39_jobs_left : forall failover fetched workers jobs j0 i0 s,
  psteps rjob rphase rshared (fun _ => RBegin) (rwork failover fetched)
    (pool_start rjob rphase rshared workers jobs (mkRShared j0 i0 [])) s ->
  p_main s = Returned ->
  Permutation (map fst (r_log (p_st s))) jobs /\
  forall k v, r_jobs (p_st s) k = Some v <->
    j0 k = Some v /\ forall p r, In ((p, k), r) (r_log (p_st s)) -> r = RFail /\ failover = true.
Proof. exact round_jobs. Qed.
Print Assumptions C39_jobs_left.

(** The stored session and serial of a module are those of a successful fetch
    for this module, or unchanged if there was none. *)
Theorem C39_stored : forall failover fetched workers jobs j0 i0 s,
  psteps rjob rphase rshared (fun _ => RBegin) (rwork failover fetched)
    (pool_start rjob rphase rshared workers jobs (mkRShared j0 i0 [])) s ->
  p_main s = Returned -> forall k,
  (r_info (p_st s) k = i0 k /\ forall p a b, ~ In ((p, k), ROk a b) (r_log (p_st s))) \/
  exists p a b, r_info (p_st s) k = Some (a, b) /\ In ((p, k), ROk a b) (r_log (p_st s)).
Proof. exact round_info. Qed.
Print Assumptions C39_stored.

(** But an address stands for one module only.  For two modules of a host
    behind one address the second replaces the first, whose rsync job stays
    although the address was fetched. *)
Theorem C39_two_modules_refuted :
  forall failover (fetched : bytes -> bytes -> Z -> rresult -> Prop) h m1 m2 p a b,
  ~ In slash h -> ~ In slash m1 -> ~ In slash m2 -> m1 <> m2 ->
  (forall x y, fetched p x y (ROk a b)) ->
  let o := register_all (two_modules h m1 m2 p) octo_empty in
  o_jobs o (domain_of h ++ m1) = Some p /\
  exists o', round failover fetched 1 o o' /\
    o_info o' (domain_of h ++ m2) = Some (a, b) /\
    o_jobs o' (domain_of h ++ m2) = None /\
    o_jobs o' (domain_of h ++ m1) = Some p.
Proof. exact job_stays. Qed.
Print Assumptions C39_two_modules_refuted.

Definition ok_job : rjob := (str "https://a/n.xml", str "rsync://a/m").
Definition bad_job : rjob := (str "https://b/n.xml", str "rsync://b/m").
Definition ex_fetched (p x : bytes) (y : Z) (r : rresult) : Prop :=
  if beq p (fst ok_job) then r = ROk (str "s") 5 else r = RFail.

Example C39_example :
  let j0 := kset (kset kempty (snd ok_job) (fst ok_job)) (snd bad_job) (fst bad_job) in
  exists s, psteps rjob rphase rshared (fun _ => RBegin) (rwork true ex_fetched)
      (pool_start rjob rphase rshared 1 [ok_job; bad_job] (mkRShared j0 kempty [])) s /\
    p_main s = Returned /\ r_jobs (p_st s) (snd ok_job) = None /\
    r_jobs (p_st s) (snd bad_job) = Some (fst bad_job) /\ r_info (p_st s) (snd ok_job) = Some (str "s", 5).
Proof.
  cbv zeta. set (j0 := kset _ _ _). eexists. split.
  - unfold pool_start. cbn [repeat]. change (Z.of_nat 1) with 1.
    eapply job_run; [intros x y; reflexivity|].
    eapply ps_front; [apply (st_send rjob rphase rshared (fun _ => RBegin) (rwork true ex_fetched) bad_job [] [] [])|]. cbn [app].
    eapply ps_front; [eapply (st_work rjob rphase rshared (fun _ => RBegin) (rwork true ex_fetched) _ [] bad_job _ _ []); apply rw_begin|]. cbn [app].
    eapply ps_front; [eapply (st_finish rjob rphase rshared (fun _ => RBegin) (rwork true ex_fetched) _ [] bad_job _ []); apply rw_fail; reflexivity|]. cbn [app].
    apply end_run.
  - cbn [p_main p_st r_jobs r_info]. vm_compute. auto.
Qed.

(** C40. A pool that has returned has done every job exactly once, and its
    workers are gone. *)
Theorem C40_every_job_once : forall Job Loc St begin work n jobs st s,
  psteps Job Loc St begin work (pool_start Job Loc St n jobs st) s -> p_main s = Returned ->
  Permutation (p_done s) jobs /\ Forall (fun w => w = Gone) (p_workers s).
Proof. exact pool_all. Qed.
Print Assumptions C40_every_job_once.

(** At every moment each job is waiting, in the hands of one worker, or done. *)
Theorem C40_no_job_lost : forall Job Loc St begin work n jobs st s,
  psteps Job Loc St begin work (pool_start Job Loc St n jobs st) s ->
  Permutation (rest (p_main s) ++ inside (p_workers s) ++ p_done s) jobs.
Proof. exact pool_once. Qed.
Print Assumptions C40_no_job_lost.

(** With at least one worker, and jobs that can always go on, there is no
    deadlock. *)
Theorem C40_no_deadlock : forall Job Loc St begin (work : Job -> Loc -> St -> option Loc -> St -> Prop),
  (forall j x st, exists o st', work j x st o st') ->
  forall n jobs st s, (0 < n)%nat ->
  psteps Job Loc St begin work (pool_start Job Loc St n jobs st) s -> p_main s <> Returned ->
  exists s', pstep Job Loc St begin work s s'.
Proof. exact pool_live. Qed.
Print Assumptions C40_no_deadlock.

(** If every job ends after finitely many steps, so does every execution. *)
Theorem C40_ends : forall Job Loc St begin (work : Job -> Loc -> St -> option Loc -> St -> Prop) (rank : Loc -> nat),
  (forall j x st x' st', work j x st (Some x') st' -> (rank x' < rank x)%nat) ->
  forall s, Acc (fun b a => pstep Job Loc St begin work a b) s.
Proof. exact pool_ends. Qed.
Print Assumptions C40_ends.

(** The RRDP jobs are such jobs. *)
Theorem C40_rrdp_ends : forall failover (fetched : bytes -> bytes -> Z -> rresult -> Prop),
  (forall p a b, exists r, fetched p a b r) ->
  (forall s, Acc (fun b a => pstep rjob rphase rshared (fun _ => RBegin) (rwork failover fetched) a b) s) /\
  forall n jobs st s, (0 < n)%nat ->
    psteps rjob rphase rshared (fun _ => RBegin) (rwork failover fetched) (pool_start rjob rphase rshared n jobs st) s ->
    p_main s <> Returned ->
    exists s', pstep rjob rphase rshared (fun _ => RBegin) (rwork failover fetched) s s'.
Proof.
  exact (fun failover fetched H =>
    conj (pool_ends _ _ _ _ _ rrank (rwork_rank failover fetched))
         (pool_live _ _ _ _ _ (rwork_total failover fetched H))).
Qed.
Print Assumptions C40_rrdp_ends.

(** With -max.concurrent.retrievals=0 nothing ever happens. *)
Theorem C40_no_worker_stuck : forall Job Loc St begin work j jobs st s,
  psteps Job Loc St begin work (pool_start Job Loc St 0 (j :: jobs) st) s ->
  s = pool_start Job Loc St 0 (j :: jobs) st.
Proof. exact pool_stuck. Qed.
Print Assumptions C40_no_worker_stuck.

(** Two workers, the second job ends first. *)
Example C40_example :
  exists s, psteps nat nat unit (fun _ => 1%nat) (fun _ x _ o _ => o = match x with O => None | S k => Some k end)
    (pool_start nat nat unit 2 [7; 8]%nat tt) s /\ p_main s = Returned /\ p_done s = [8; 7]%nat.
Proof.
  set (w := fun _ x _ o _ => _). eexists. split.
  - unfold pool_start. cbn [repeat].
    eapply ps_front; [apply (st_send nat nat unit _ w 7%nat [8%nat] [] [Idle])|]. cbn [app].
    eapply ps_front; [apply (st_send nat nat unit _ w 8%nat [] [Busy 7%nat 1%nat] [])|]. cbn [app].
    eapply ps_front; [apply (st_work nat nat unit _ w _ [Busy 7%nat 1%nat] 8%nat 1%nat 0%nat [] _ tt tt); reflexivity|]. cbn [app].
    eapply ps_front; [apply (st_finish nat nat unit _ w _ [Busy 7%nat 1%nat] 8%nat 0%nat [] _ tt tt); reflexivity|]. cbn [app].
    eapply ps_front; [apply (st_work nat nat unit _ w _ [] 7%nat 1%nat 0%nat [Idle] _ tt tt); reflexivity|]. cbn [app].
    eapply ps_front; [apply (st_finish nat nat unit _ w _ [] 7%nat 0%nat [Idle] _ tt tt); reflexivity|]. cbn [app].
    eapply ps_front; [apply st_close|].
    eapply ps_front; [apply (st_leave nat nat unit _ w [] [Idle])|]. cbn [app].
    eapply ps_front; [apply (st_leave nat nat unit _ w [Gone] [])|]. cbn [app].
    eapply ps_front; [apply st_return|]. apply ps_refl.
  - split; reflexivity.
Qed.
