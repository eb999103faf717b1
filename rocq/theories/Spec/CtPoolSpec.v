(** Where a chain is that is to be submitted. *)
From Coq Require Import List.
From Verif.Model Require Import Base Str Tal Validator Octo Ct CtPool.
Import ListNotations.

(** Not yet handed over. *)
Definition to_hand {C} (m : hander C) : list C := match m with Hands l => l | _ => [] end.
(** Being submitted. *)
Definition in_hands {C} (ws : list (sender C)) : list C :=
  flat_map (fun w => match w with Submits c => [c] | _ => [] end) ws.

(** The states of one validator after each of several explorations, with orders
    in which its maps may be iterated. *)
Inductive explorations (run : list op -> validator -> vres validator)
  : validator -> list (validator * list (bytes * addr) * list (bytes * bytes)) -> Prop :=
| ex_none v : explorations run v []
| ex_one ops v v' objs order aki path vs :
    run ops v = VRet v' -> listing (v_valid v') objs ->
    ct_maps objs (v_heap v') kempty kempty = VRet (aki, path) -> listing aki order ->
    explorations run v' vs -> explorations run v ((v', objs, order) :: vs).
