(** Where the jobs of a pool are. *)
From Coq Require Import List.
From Verif.Model Require Import Pool.
Import ListNotations.

Definition rest {Job} (m : feeder Job) : list Job := match m with Sending l => l | _ => [] end.
Definition current {Job Loc} (w : worker Job Loc) : list Job := match w with Busy j _ => [j] | _ => [] end.
Definition inside {Job Loc} (ws : list (worker Job Loc)) : list Job := flat_map current ws.
