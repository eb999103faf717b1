(** The workers that submit chains of certificates: cmd/octorpki/ct.go:42-107
    and cmd/ctrpki/ctrpki.go:32-46, 82-101, 157-196.  Goroutines and channels
    as transition systems; every interleaving is an execution. *)
From Coq Require Import List ZArith.
From Verif.Model Require Import Base Str Tal Validator NetText Explore Ct.
Import ListNotations.

(** A worker waits for a chain, submits one, has returned. *)
Inductive sender (C : Type) := Ready | Submits (c : C) | Left.
Arguments Ready {C}.
Arguments Submits {C} c.
Arguments Left {C}.

(** What main does: it hands over the chains that are left; in ctrpki it then
    tells the workers to return, from the given one on; it has returned. *)
Inductive hander (C : Type) := Hands (l : list C) | Quits (i : nat) | Ended.
Arguments Hands {C} l.
Arguments Quits {C} i.
Arguments Ended {C}.

Record sending (C : Type) := mkSend {
  s_main : hander C;
  s_buffer : list C;              (* the chains in the channel *)
  s_workers : list (sender C);
  s_sent : list C                 (* submitted, in order *)
}.
Arguments mkSend {C}.
Arguments s_main {C}.
Arguments s_buffer {C}.
Arguments s_workers {C}.
Arguments s_sent {C}.

Section Pools.
Variable C : Type.

Definition send_start (threads : nat) (l : list C) : sending C := mkSend (Hands l) [] (repeat Ready threads) [].

(** octorpki: the channel has no buffer, and is closed when all chains are
    handed over; the function does not wait for the workers. *)
Inductive ostep : sending C -> sending C -> Prop :=
(* ct.go:100-102 meets line 45 *)
| os_hand c l a b sent :
    ostep (mkSend (Hands (c :: l)) [] (a ++ Ready :: b) sent) (mkSend (Hands l) [] (a ++ Submits c :: b) sent)
(* lines 28-40, 46 *)
| os_submit m a c b sent :
    ostep (mkSend m [] (a ++ Submits c :: b) sent) (mkSend m [] (a ++ Ready :: b) (sent ++ [c]))
(* line 68, deferred *)
| os_close ws sent : ostep (mkSend (Hands []) [] ws sent) (mkSend Ended [] ws sent)
(* the end of the loop over the closed channel *)
| os_leave a b sent : ostep (mkSend Ended [] (a ++ Ready :: b) sent) (mkSend Ended [] (a ++ Left :: b) sent).

(** ctrpki: the channel has a place for each worker, and each worker has a
    channel through which it is told to return. *)
Inductive cstep (threads : nat) : sending C -> sending C -> Prop :=
(* ctrpki.go:183-184 *)
| cs_put c l q ws sent : (length q < threads)%nat ->
    cstep threads (mkSend (Hands (c :: l)) q ws sent) (mkSend (Hands l) (q ++ [c]) ws sent)
(* lines 36-37 *)
| cs_take m c q a b sent :
    cstep threads (mkSend m (c :: q) (a ++ Ready :: b) sent) (mkSend m q (a ++ Submits c :: b) sent)
(* lines 37-40 *)
| cs_submit m q a c b sent :
    cstep threads (mkSend m q (a ++ Submits c :: b) sent) (mkSend m q (a ++ Ready :: b) (sent ++ [c]))
(* the end of main; the deferred function at lines 95-101 *)
| cs_end q ws sent : cstep threads (mkSend (Hands []) q ws sent) (mkSend (Quits 0) q ws sent)
(* line 98 meets line 41 *)
| cs_quit q a b sent : (length a < threads)%nat ->
    cstep threads (mkSend (Quits (length a)) q (a ++ Ready :: b) sent) (mkSend (Quits (S (length a))) q (a ++ Left :: b) sent)
| cs_exit q ws sent : cstep threads (mkSend (Quits threads) q ws sent) (mkSend Ended q ws sent).

Inductive steps (step : sending C -> sending C -> Prop) : sending C -> sending C -> Prop :=
| steps_refl s : steps step s s
| steps_next a b c : steps step a b -> step b c -> steps step a c.
End Pools.

(** ctrpki.go:105-155: the chains after each locator.  One validator is used for
    all of them; [vs] are its states after each exploration, with the orders in
    which its map ValidObjects and the map made from it are iterated. *)
Fixpoint ctrpki_chains (vs : list (validator * list (bytes * addr) * list (bytes * bytes))) : vres (list (list (option pkifile))) :=
  match vs with
  | [] => VRet []
  | (v, objs, order) :: vs' =>
      do! a := ct objs order v in
      do! b := ctrpki_chains vs' in
      VRet (a ++ b)
  end.

(** ctrpki.go:159-190 without threads: one chain after the other; LocalFetch
    knows of no repository that is synchronised (lines 58-60). *)
Definition ctrpki_requests (disk : bytes -> option bytes) (sha256 : bytes -> bytes) (cms_certs : bytes -> option bytes)
  (l : list (list (option pkifile))) : vres (list (list bytes)) :=
  ct_send disk (fun _ => false) sha256 cms_certs l.
