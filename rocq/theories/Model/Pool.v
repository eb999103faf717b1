(** The worker pools: cmd/octorpki/rrdp_fetcher.go:21-57,
    cmd/octorpki/rsync_fetcher.go:16-50.  Goroutines, the unbuffered channel
    and the wait group as a transition system; every interleaving is an
    execution. *)
From Verif.Model Require Import Base Str Paths Cache.

(** The goroutine that feeds the pool (octorpki.go:418-424): it sends the jobs
    that are left, has closed the channel and waits, has returned. *)
Inductive feeder (Job : Type) := Sending (l : list Job) | Waiting | Returned.
Arguments Sending {Job} l.
Arguments Waiting {Job}.
Arguments Returned {Job}.

(** A worker (rrdp_fetcher.go:36-42): it waits for a job, works on one, has
    left the loop over the closed channel and called wg.Done. *)
Inductive worker (Job Loc : Type) := Idle | Busy (j : Job) (x : Loc) | Gone.
Arguments Idle {Job Loc}.
Arguments Busy {Job Loc} j x.
Arguments Gone {Job Loc}.

Record pool (Job Loc St : Type) := mkPool {
  p_main : feeder Job;
  p_workers : list (worker Job Loc);
  p_wg : Z;                       (* the counter of the wait group *)
  p_st : St;                      (* what the jobs share *)
  p_done : list Job               (* completed jobs, in order of completion *)
}.
Arguments mkPool {Job Loc St}.
Arguments p_main {Job Loc St}.
Arguments p_workers {Job Loc St}.
Arguments p_wg {Job Loc St}.
Arguments p_st {Job Loc St}.
Arguments p_done {Job Loc St}.

Section Pool.
  Variables Job Loc St : Type.
  (** Where the work on a job begins, and its atomic steps; [None]: the job is
      finished. *)
  Variable begin : Job -> Loc.
  Variable work : Job -> Loc -> St -> option Loc -> St -> Prop.

  (** rrdp_fetcher.go:21-34 *)
  Definition pool_start (workers : nat) (jobs : list Job) (st : St) : pool Job Loc St :=
    mkPool (Sending jobs) (repeat Idle workers) (Z.of_nat workers) st [].

  Inductive pstep : pool Job Loc St -> pool Job Loc St -> Prop :=
  (* a send meets a receive: rrdp_fetcher.go:52-57 and line 39 *)
  | st_send j js a b wg st dn :
      pstep (mkPool (Sending (j :: js)) (a ++ Idle :: b) wg st dn)
            (mkPool (Sending js) (a ++ Busy j (begin j) :: b) wg st dn)
  (* the body of the loop, line 40 *)
  | st_work m a j x x' b wg st st' dn :
      work j x st (Some x') st' ->
      pstep (mkPool m (a ++ Busy j x :: b) wg st dn)
            (mkPool m (a ++ Busy j x' :: b) wg st' dn)
  | st_finish m a j x b wg st st' dn :
      work j x st None st' ->
      pstep (mkPool m (a ++ Busy j x :: b) wg st dn)
            (mkPool m (a ++ Idle :: b) wg st' (dn ++ [j]))
  (* close: lines 44-46 *)
  | st_close ws wg st dn :
      pstep (mkPool (Sending []) ws wg st dn) (mkPool Waiting ws wg st dn)
  (* a receive from the closed channel ends the loop, line 37 runs *)
  | st_leave a b wg st dn :
      pstep (mkPool Waiting (a ++ Idle :: b) wg st dn)
            (mkPool Waiting (a ++ Gone :: b) (wg - 1) st dn)
  (* wg.Wait returns: lines 48-50 *)
  | st_return ws st dn :
      pstep (mkPool Waiting ws 0 st dn) (mkPool Returned ws 0 st dn).

  Inductive psteps : pool Job Loc St -> pool Job Loc St -> Prop :=
  | ps_refl s : psteps s s
  | ps_more s s1 s2 : psteps s s1 -> pstep s1 s2 -> psteps s s2.
End Pool.

(** The RRDP jobs: a notification address and the rsync module. *)
Definition rjob := (bytes * bytes)%type.

(** How a fetch ends: success with the session and serial to store, an error
    for which rsync is tried, the error "http: request body too large". *)
Inductive rresult := ROk (session : bytes) (serial : Z) | RFail | RTooLarge.

(** octorpki.go: rsyncFetchJobManager.rsyncFetchJobs and RRDPInfo (session and
    serial; the zero value for a missing key); [r_log] is a record of the
    results, not in the program. *)
Record rshared := mkRShared {
  r_jobs : kmap bytes;
  r_info : kmap (bytes * Z);
  r_log : list (rjob * rresult)
}.

(** octorpki.go:427-471 fetchRRDP, 473-485 newRRDPSystem, 487-513 rrdpError:
    read the stored session and serial, fetch, drop the rsync job, store. *)
Inductive rphase := RBegin | RFetch (session : bytes) (serial : Z) | RStore (session : bytes) (serial : Z).

Definition odef {A} (d : A) (o : option A) : A := match o with Some a => a | None => d end.

Section Rrdp.
  Variable failover : bool.
  (** The possible results of the fetch of an address. *)
  Variable fetched : bytes -> bytes -> Z -> rresult -> Prop.

  Inductive rwork : rjob -> rphase -> rshared -> option rphase -> rshared -> Prop :=
  | rw_begin j s :
      rwork j RBegin s (Some (RFetch (fst (odef ([], 0) (r_info s (snd j)))) (snd (odef ([], 0) (r_info s (snd j)))))) s
  | rw_ok j a b a' b' s : fetched (fst j) a b (ROk a' b') ->
      rwork j (RFetch a b) s (Some (RStore a' b'))
        (mkRShared (kdel (r_jobs s) (snd j)) (r_info s) (r_log s ++ [(j, ROk a' b')]))
  | rw_fail j a b s : fetched (fst j) a b RFail ->
      rwork j (RFetch a b) s None
        (mkRShared (if failover then r_jobs s else kdel (r_jobs s) (snd j)) (r_info s) (r_log s ++ [(j, RFail)]))
  | rw_large j a b s : fetched (fst j) a b RTooLarge ->
      rwork j (RFetch a b) s None
        (mkRShared (kdel (r_jobs s) (snd j)) (r_info s) (r_log s ++ [(j, RTooLarge)]))
  | rw_store j a b s :
      rwork j (RStore a b) s None
        (mkRShared (r_jobs s) (kset (r_info s) (snd j) (a, b)) (r_log s)).
End Rrdp.
