(** Addresses below others. *)
From Coq Require Import List ZArith String.
From Verif.Model Require Import Base Str.
Import ListNotations.
Open Scope Z_scope.

(** [a] is [p] or below it. *)
Definition below (p a : bytes) : Prop := a = p \/ exists r, a = p ++ 47 :: r.
(** An address with the scheme and something behind it. *)
Definition an_address (a : bytes) : Prop := exists s, s <> [] /\ a = str "rsync://" ++ s.

(** [p] is not returned although it is reached: it has only one component; or
    something below it was added before it, if it was, and all that was added
    below it is in one place. *)
Definition gone_through (items : list bytes) (p : bytes) : Prop :=
  (exists h, p = str "rsync://" ++ h /\ ~ In 47 h) \/
  ((exists a y b, items = a ++ y :: b /\ below p y /\ y <> p /\ forall z, In z a -> ~ below p z) /\
   (exists n, ~ In 47 n /\ forall z, In z items -> below p z -> z <> p -> below (p ++ 47 :: n) z)).
(** So is [x] and all above it. *)
Definition passed_over (items : list bytes) (x : bytes) : Prop :=
  forall s, below (str "rsync://" ++ s) x -> gone_through items (str "rsync://" ++ s).
