(** Extensions of certificates as RFC 5280 and RFC 6487 want them. *)
From Coq Require Import List ZArith Bool.
From Verif.Model Require Import Base X509.
From Verif.Spec Require Import IpExtSpec ContentSpec.
Import ListNotations.
Open Scope Z_scope.

Definition ascii_text (s : bytes) : Prop := Forall (fun b => 0 <= b < 128) s.

(** RFC 5280, 4.2.2: a list of one AccessDescription, whose location is the URI
    [uri]: context-specific tag 6. *)
Definition access_value (method : list Z) (uri d : bytes) : Prop :=
  exists c e1 e2 e, oid_coded c method /\ coded 6 c e1 /\ coded 134 uri e2 /\ coded 48 (e1 ++ e2) e /\ coded 48 e d.

(** RFC 5280, 4.2.1.4: one PolicyInformation with the policy [policy].  The list
    of qualifiers is absent or has at least one element; here it has one, the
    address of a statement of practice, an IA5String. *)
Inductive qualifiers : option bytes -> bytes -> Prop :=
| q_none : qualifiers None []
| q_cps uri c e1 e2 e e' : ascii_text uri -> oid_coded c [1; 3; 6; 1; 5; 5; 7; 2; 1] -> coded 6 c e1 -> coded 22 uri e2 ->
    coded 48 (e1 ++ e2) e -> coded 48 e e' -> qualifiers (Some uri) e'.
Definition policy_value (policy : list Z) (cps : option bytes) (d : bytes) : Prop :=
  exists c e1 e2 e, oid_coded c policy /\ coded 6 c e1 /\ qualifiers cps e2 /\ coded 48 (e1 ++ e2) e /\ coded 48 e d.

(** The extension occurs once in the list. *)
Definition only_one (x : extension) (l : list extension) : Prop :=
  In x l /\ forall y, In y l -> e_id y = e_id x -> y = x.

(** RFC 6487, 4.8: which extensions are critical. *)
Definition critical_rfc6487 : list (list Z * bool) :=
  [([2; 5; 29; 32], true);                        (* certificate policies *)
   ([1; 3; 6; 1; 5; 5; 7; 1; 1], false);          (* authority information access *)
   ([1; 3; 6; 1; 5; 5; 7; 1; 11], false);         (* subject information access *)
   ([1; 3; 6; 1; 5; 5; 7; 1; 7], true);           (* IP resources *)
   ([1; 3; 6; 1; 5; 5; 7; 1; 8], true)].          (* AS resources *)
