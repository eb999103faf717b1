(** Data races, and what it means that the loop can go on. *)
From Coq Require Import List.
From Verif.Model Require Import Base Shared.
Import ListNotations.
Open Scope nat_scope.

(** The next step of goroutine [i] is an access to [x]. *)
Definition about_to (s : state) (i : nat) (x : var) (write : bool) : Prop :=
  exists t o c, nth_error (s_threads s) i = Some t /\ t_code t = Do o :: c /\
    if write then exists v, o = Wr x v else o = Rd x.
(** Two goroutines are about to access [x], one of them to write it. *)
Definition race (x : var) (s : state) : Prop :=
  exists i j w, i <> j /\ about_to s i x true /\ about_to s j x w.

Definition reached (reads : nat -> bool) (rs : list round) (qs : list request) (s : state) : Prop :=
  exists sched, run reads sched (start rs qs) = Some s.

Definition loop_done (s : state) : Prop := exists t, nth_error (s_threads s) 0 = Some t /\ t_code t = [].
Definition answered (s : state) (k : nat) : Prop := exists t, nth_error (s_threads s) (S k) = Some t /\ t_code t = [].
(** The loop can still be brought to its end, and every request whose client
    reads can be answered. *)
Definition can_finish (reads : nat -> bool) (qs : list request) (s : state) : Prop :=
  exists sched s', run reads sched s = Some s' /\ loop_done s' /\
    forall k, k < length qs -> reads (S k) = true -> answered s' k.
(** Never, whatever runs next. *)
Definition never (reads : nat -> bool) (s : state) (P : state -> Prop) : Prop :=
  forall sched s', run reads sched s = Some s' -> ~ P s'.

(** Request number [k] is one for the resources that is answered, and its
    client does not read. *)
Definition slow_client (reads : nat -> bool) (qs : list request) (k : nat) : Prop :=
  nth_error qs k = Some (GetResources true) /\ reads (S k) = false.

(** What request number [k] has read of [x]. *)
Definition has_read (s : state) (k : nat) (x : var) (v : nat) : Prop :=
  exists t, nth_error (s_threads s) (S k) = Some t /\ In (x, v) (t_seen t).
