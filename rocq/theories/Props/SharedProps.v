(** C94: data shared between the goroutines of octorpki in server mode. *)
From Coq Require Import List Arith.
From Verif.Model Require Import Base Shared.
From Verif.Spec Require Import SharedSpec.
From Verif.Proofs Require Import SharedProofs SharedThm SharedWait.
Import ListNotations.
Open Scope nat_scope.

(** Whatever the rounds of the loop do, whatever requests come, however the
    goroutines are scheduled: what is fetched, the domains, the jobs, the
    state of RRDP, the authorities and the resources are not raced for, nor
    are the locators and the repositories, which only the loop uses. *)
Theorem C94_guarded : forall reads rs qs s x, In x [XFetch; XDomain; XJobs; XRrdp; XInfo; XRes; XTals; XCurrent; XPrev] ->
  reached reads rs qs s -> ~ race x s.
Proof. exact no_race. Qed.
Print Assumptions C94_guarded.

(** No lock is released by one who does not hold it, and none is kept. *)
Theorem C94_locks : forall reads rs qs s i t, reached reads rs qs s -> nth_error (s_threads s) i = Some t ->
  (forall l c, t_code t = Do (Unlock l) :: c -> In l (map fst (t_held t))) /\ (t_code t = [] -> t_held t = []).
Proof. exact (fun reads rs qs s i t R N => conj (fun l c => unlock_held reads rs qs s i t l c R N) (ended_free reads rs qs s i t R N)). Qed.
Print Assumptions C94_locks.

(** If the clients of /resources.json read, then whatever the other clients do
    the loop can always go on to its end, and every request whose client reads
    can be answered. *)
Theorem C94_progress_partial : forall reads rs qs s, (forall k, ~ slow_client reads qs k) -> reached reads rs qs s -> can_finish reads qs s.
Proof. exact goes_on. Qed.
Print Assumptions C94_progress_partial.

(** The loop comes to the locators, to validation and to the results only when
    the workers that fetch have ended. *)
Theorem C94_waits : forall reads rs qs s x w, In x [XTals; XCurrent; XPrev; XInfo; XRes; XRoas; XComputed; XCounts; XDuration] ->
  reached reads rs qs s -> about_to s 0 x w ->
  forall i t, nth_error (s_threads s) i = Some t -> t_kind t = Worker -> t_code t = [].
Proof. exact waits. Qed.
Print Assumptions C94_waits.
(** A state in which the loop has come so far, with workers that have ended. *)
Example C94_example_waits : exists s t, reached everybody [rich; r0] [] s /\ about_to s 0 XTals false /\
  nth_error (s_threads s) 1 = Some t /\ t_kind t = Worker.
Proof.
  exists (greedy 43 everybody 12 (start [rich; r0] [])). eexists. split; [apply greedy_reached|].
  split; [apply about_b_ok; vm_compute; reflexivity|]. split; [vm_compute; reflexivity|reflexivity].
Qed.

(** Once a list, a count or a time is served, no older one is. *)
Theorem C94_no_going_back : forall reads rs qs s sched s' x, In x [XRoas; XInfo; XRes; XComputed; XCounts; XDuration] ->
  reached reads rs qs s -> run reads sched s = Some s' -> s_store s x <= s_store s' x.
Proof. exact no_going_back. Qed.
Print Assumptions C94_no_going_back.

(** One client of /resources.json that does not read is enough to stop
    validation for good, *)
Theorem C94_stall_refuted : forall reads rs qs k, rs <> [] -> slow_client reads qs k ->
  exists s, reached reads rs qs s /\ never reads s loop_done.
Proof. exact slow_stalls. Qed.
Print Assumptions C94_stall_refuted.
(** and then those who come later for the resources get no answer either. *)
Theorem C94_answers_refuted : exists reads rs qs s k, nth_error qs k = Some (GetResources true) /\ reads (S k) = true /\
  (forall k', reads (S k') = false -> k' = 0) /\ reached reads rs qs s /\ never reads s (fun s' => loop_done s' \/ answered s' k).
Proof. exact others_wait. Qed.
Print Assumptions C94_answers_refuted.

(** The list, the counts, the time of computing and the duration are raced for. *)
Theorem C94_races_refuted : forall x, In x [XRoas; XCounts; XComputed; XDuration] -> exists rs qs s, reached everybody rs qs s /\ race x s.
Proof. exact races. Qed.
Print Assumptions C94_races_refuted.

(** A list may be served with the age of another one. *)
Theorem C94_age_refuted : exists rs s, reached everybody rs [GetRoas true] s /\ answered s 0 /\ has_read s 0 XComputed 2 /\ has_read s 0 XRoas 1.
Proof. exact age_of_another. Qed.
Print Assumptions C94_age_refuted.

(** A run with workers, fallbacks and all four requests. *)
Example C94_run : exists s, reached everybody [rich; r0] [GetRoas true; GetInfo; GetResources true; GetHealth] s /\ loop_done s /\ s_store s XRoas = 2.
Proof. exact whole_run. Qed.
