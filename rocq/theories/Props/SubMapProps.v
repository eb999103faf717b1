(** C85: grouping of rsync addresses. *)
From Coq Require Import List ZArith String Permutation.
From Verif.Model Require Import Base Str Tal Paths SubMap.
From Verif.Spec Require Import SubMapSpec.
From Verif.Proofs Require Import SubMapProofs SubMapThm.
Import ListNotations.
Open Scope Z_scope.

Definition added (items : list bytes) : list (bytes * submap) := fold_left (fun m i => add_in_map i m) items [].

Section Props.
(** Any orders of iteration. *)
Variable order : nat -> list (bytes * submap) -> list (bytes * submap).
Hypothesis order_perm : forall n m, Permutation (order n m) m.

(** C85. ReduceMap ends. *)
Theorem C85_ends : forall items, reduce_map order (added items) <> None.
Proof. intros items. exact (reduce_ends order order_perm _). Qed.

(** Each address returned has at least two components, and something below it was
    added. *)
Theorem C85_nothing_else : forall items r, reduce_map order (added items) = Some r ->
  forall x, In x r -> (exists h m, x = str "rsync://" ++ h ++ 47 :: m) /\ exists i, In i items /\ below x i.
Proof. exact (returned_above order order_perm). Qed.

(** None is below another. *)
Theorem C85_apart : forall items r, reduce_map order (added items) = Some r ->
  forall x y, In x r -> In y r -> below x y -> x = y.
Proof. exact (returned_apart order order_perm). Qed.

(** Exactly the addresses that are not passed over are covered by what is
    returned, whatever the orders of iteration. *)
Theorem C85_covered_partial : forall items r, reduce_map order (added items) = Some r ->
  forall i, In i items -> an_address i -> ((exists x, In x r /\ below x i) <-> ~ passed_over items i).
Proof. exact (covered order order_perm). Qed.

(** In particular all those of two components and more that are not above one
    added earlier. *)
Theorem C85_covered_in_order : forall items r, reduce_map order (added items) = Some r ->
  forall a i b h m, items = a ++ i :: b -> i = str "rsync://" ++ h ++ 47 :: m -> (forall z, In z a -> ~ below i z) ->
  exists x, In x r /\ below x i.
Proof.
  intros items r R a i b h m E EI F. apply (covered order order_perm items r R).
  - subst. apply in_elt.
  - exists (h ++ 47 :: m). split; [destruct h; discriminate|exact EI].
  - intros P. subst i. specialize (P (h ++ 47 :: m) (or_introl eq_refl)).
    destruct P as [(h' & E1 & N)|((a' & y & b' & E1 & B & NY & F') & _)].
    + apply app_inv_head in E1. apply N. rewrite <- E1. apply in_elt.
    + rewrite E in E1. clear - E1 F F' B NY. revert a' E1 F'. induction a as [|u a IH]; intros [|w a'] E1 F'; cbn [app] in E1; injection E1 as E1 E2.
      * now elim NY.
      * apply (F' w); [now left|]. left. symmetry. exact E1.
      * apply (F u); [now left|]. rewrite E1. exact B.
      * exact (IH (fun z I => F z (or_intror I)) a' E2 (fun z I => F' z (or_intror I))).
Qed.
End Props.
Print Assumptions C85_ends.
Print Assumptions C85_nothing_else.
Print Assumptions C85_apart.
Print Assumptions C85_covered_partial.
Print Assumptions C85_covered_in_order.

Definition as_made (_ : nat) (m : list (bytes * submap)) := m.
Example C85_example : (forall n m, Permutation (as_made n m) m) /\
  reduce_map as_made (added (map str ["rsync://h/a/x"; "rsync://g/b/c"; "rsync://h/a/y"; "http://h/z"]%string)) =
  Some (map str ["rsync://h/a"; "rsync://g/b/c"]%string).
Proof. split; [reflexivity|vm_compute; reflexivity]. Qed.

(** C85 fails: an address added after one below it is lost, since the counter of
    an entry that is found is not stored; and so is one without a module. *)
Theorem C85_later_parent_refuted :
  reduce_map as_made (added (map str ["rsync://h/m/x"; "rsync://h/m"]%string)) = Some [str "rsync://h/m/x"] /\
  ~ below (str "rsync://h/m/x") (str "rsync://h/m") /\
  reduce_map as_made (added (map str ["rsync://h/m"; "rsync://h/m/x"]%string)) = Some [str "rsync://h/m"].
Proof.
  split; [vm_compute; reflexivity|]. split; [|vm_compute; reflexivity]. intros [E|(r & E)]; vm_compute in E; discriminate.
Qed.
Theorem C85_host_only_refuted : reduce_map as_made (added [str "rsync://h"]) = Some [].
Proof. vm_compute. reflexivity. Qed.
Print Assumptions C85_later_parent_refuted.
Print Assumptions C85_host_only_refuted.
