(** The flag that maps addresses to directories. *)
From Coq Require Import List ZArith.
From Verif.Model Require Import Base Str.
Import ListNotations.
Open Scope Z_scope.

(** The pieces of a text between commas. *)
Inductive pieces : bytes -> list bytes -> Prop :=
| pc_last s : ~ In 44 s -> pieces s [s]
| pc_more s t l : ~ In 44 s -> pieces t l -> pieces (s ++ 44 :: t) (s :: l).

(** The piece says that [k] stands for [v]. *)
Definition says (piece k v : bytes) : Prop := piece = k ++ 61 :: v /\ ~ In 61 k /\ ~ In 61 v.

(** [k] stands for [v] according to the last piece that says something of
    [k]. *)
Definition maps_to (l : list bytes) (k v : bytes) : Prop :=
  exists a piece b, l = a ++ piece :: b /\ says piece k v /\ forall x w, In x b -> ~ says x k w.

(** [s] has [p] in it. *)
Definition within (p s : bytes) : Prop := exists a b, s = a ++ p ++ b.

(** The directory, with a slash at the end. *)
Definition with_slash (v d : bytes) : Prop :=
  (d = v /\ exists x, v = x ++ [47]) \/ (d = v ++ [47] /\ forall x, v <> x ++ [47]).
