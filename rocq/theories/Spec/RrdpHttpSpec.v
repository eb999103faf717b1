(** Downloads that fail or are too large, without reference to the loops of
    the program. *)
From Coq Require Import List ZArith String.
From Verif.Model Require Import Base Str Paths Cache Rrdp RrdpXml XmlLex RrdpHttp Pool.
From Verif.Spec Require Import RrdpSpec.
Import ListNotations.
Open Scope Z_scope.

(** A response with a body longer than the limit. *)
Definition oversized (limit : Z) (a : answer) : Prop :=
  exists body fails, a = Response 200 body fails /\ limit < Z.of_nat (List.length body).

(** A complete response within the limit. *)
Definition complete (limit : Z) (a : answer) (body : bytes) : Prop :=
  a = Response 200 body None /\ Z.of_nat (List.length body) <= limit.

(** The part of an answer that is looked at: nothing of the body of a response
    with another status, at most one octet more than the limit of a body. *)
Definition needed (limit : Z) (a : answer) : answer :=
  match a with
  | Response code body fails =>
      if Z.eqb code 200 then
        if Z.ltb limit (Z.of_nat (List.length body)) then Response code (firstn (Z.to_nat (limit + 1)) body) None else a
      else Response code [] None
  | _ => a
  end.

(** No other error has the text of the one for a body that is too large:
    neither a body that breaks off nor the callback. *)
Definition other_texts {St} (cb_text : event -> St -> bytes) (web : bytes -> answer) : Prop :=
  (forall e s, cb_text e s <> str "http: request body too large") /\
  (forall u code body, web u <> Response code body (Some (str "http: request body too large"))).

(** The addresses an update may ask: the notification file, then either the
    snapshot or the deltas after the stored serial, in order, up to the last
    one or to one that gives an error. *)
Definition asks (n : notif) (path ls : bytes) (last : Z) (q : list bytes) : Prop :=
  ((needs_snapshot n ls last \/ n_serial n = 2 ^ 63 - 1) /\ q = [path; n_snapshot n]) \/
  (~ needs_snapshot n ls last /\
   exists us ks rest, q = path :: us /\ serials last (n_serial n) = ks ++ rest /\ Forall2 (announces n) ks us).

(** How the pool of octorpki sees a result. *)
Definition seen_as (limit : Z) (web : bytes -> answer) (r : hres) (q : list bytes) (x : rresult) : Prop :=
  match x with
  | ROk a b => r = HDone a b
  | RFail => (exists e, r = HError e) /\ forall u, In u q -> ~ oversized limit (web u)
  | RTooLarge => (exists e, r = HError e) /\ exists u, In u q /\ oversized limit (web u)
  end.
