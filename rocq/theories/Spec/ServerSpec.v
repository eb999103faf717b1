(** What clients of the server get. *)
From Coq Require Import List ZArith.
From Verif.Model Require Import Base Output Octo Server.
Import ListNotations.
Open Scope Z_scope.

(** The lists made before the end of [evs]. *)
Definition made (evs : list sev) : list roalist :=
  flat_map (fun e => match e with SList l => [l] | _ => [] end) evs.

(** [l] was made by the last validation completed in [evs], which is number [k]
    of [ps], counted from 0. *)
Definition of_last (ps : list pass) (evs : list sev) (k : nat) (l : roalist) : Prop :=
  length (made evs) = S k /\ exists f, nth_error ps k = Some (f, l).

(** A client that asks again and again.  Each time it presents the tag of the
    list that it holds, and keeps what it is given. *)
Definition tag_held (held : option (bytes * roalist)) : bytes :=
  match held with Some (t, _) => t | None => [] end.
Definition keeps (held : option (bytes * roalist)) (a : answer) : option (bytes * roalist) :=
  match a with Content t l => Some (t, l) | _ => held end.

(** A request during the loop whose assignments are [evs]: the flags are read
    after [a], the list after [a ++ b]. *)
Definition during (evs a b : list sev) : Prop := exists rest, evs = a ++ b ++ rest.

(** What a client holds after requests at some moments of the loop. *)
Inductive client (sha256 : bytes -> bytes) (c : lcfg) (evs : list sev) : option (bytes * roalist) -> Prop :=
| client_new : client sha256 c evs None
| client_asks held a b : client sha256 c evs held -> during evs a b ->
    client sha256 c evs (keeps held (answer_roas sha256 c (srv_after a) (srv_after (a ++ b)) (tag_held held))).

(** No two lists were made in one second, and none at the beginning of 1970. *)
Definition seconds_apart (ps : list pass) : Prop :=
  NoDup (0 :: map (fun p => m_generated (l_meta (snd p))) ps).
