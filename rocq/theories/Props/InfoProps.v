(** C81: the repositories shown on the information page. *)
From Coq Require Import List ZArith String.
From Verif.Model Require Import Base Str Paths Validator Pool Octo Info.
From Verif.Spec Require Import InfoSpec.
From Verif.Proofs Require Import InfoProofs.
Import ListNotations.

(** Each module that a validation registers is shown exactly once: below the
    TAL where it is registered first.  [grow] is how append chooses
    capacities. *)
Theorem C81_modules_once : forall grow ls o i sites,
  nth_error (info_authorities grow ls o) i = Some sites ->
  NoDup (map s_rsync sites) /\
  forall m, In m (map s_rsync sites) <-> first_below i m (regs 0 ls o).
Proof. exact info_modules. Qed.
Print Assumptions C81_modules_once.

(** There is one list for each TAL; the page shows them under the configured
    names if there are as many as TALs, under the paths otherwise. *)
Theorem C81_page : forall grow ls o tals names, List.length ls = List.length tals ->
  List.length (info_authorities grow ls o) = List.length tals /\
  (List.length names = List.length tals ->
   serve_info tals names (info_authorities grow ls o) = combine names (info_authorities grow ls o)) /\
  (List.length names <> List.length tals ->
   serve_info tals names (info_authorities grow ls o) = combine tals (info_authorities grow ls o)).
Proof.
  exact (fun grow ls o tals names H =>
    conj (eq_trans (info_length grow ls o) H)
         (serve_info_page tals names _ (eq_trans (info_length grow ls o) H))).
Qed.
Print Assumptions C81_page.

(** The notification address shown is one that a registered certificate names
    together with the module; if all name the same one, it is that one. *)
Theorem C81_address_named : forall grow ls o i sites s,
  nth_error (info_authorities grow ls o) i = Some sites -> In s sites ->
  exists j, In (j, s_rsync s, s_rrdp s) (regs 0 ls o).
Proof. exact info_rrdp. Qed.
Print Assumptions C81_address_named.

(** A certificate counts as registered exactly when it changes what will be
    fetched: it becomes a job of the module with its address. *)
Theorem C81_registered : forall sia o,
  match registered_as sia o with
  | None => register sia o = o
  | Some (m, p) => o_jobs (register sia o) m = Some p /\ In m (o_cur (register sia o))
  end.
Proof. exact registered_register. Qed.
Print Assumptions C81_registered.

Example C81_example :
  let ls := [[i_cert "a" "p"; i_cert "b" "q"]; [i_cert "b" "q"; i_cert "c" "s"]]%string in
  info_authorities (fun n => (2 * n)%nat) ls octo_empty =
    [[mkSite (i_module "a") (str "p"); mkSite (i_module "b") (str "q")]; [mkSite (i_module "c") (str "s")]]%string.
Proof. vm_compute. reflexivity. Qed.

(** It need not be the address that will be used: an update through a pointer
    into an array that append has left is lost.  [grow 0 = 1] is what Go's
    append does with elements of this size. *)
Theorem C81_latest_refuted : forall grow, grow 0%nat = 1%nat ->
  let ls := [[i_cert "a" "p"; i_cert "b" "q"; i_cert "a" "r"]]%string in
  info_authorities grow ls octo_empty =
    [[mkSite (i_module "a") (str "p"); mkSite (i_module "b") (str "q")]]%string /\
  regs 0 ls octo_empty =
    [(0%nat, i_module "a", str "p"); (0%nat, i_module "b", str "q"); (0%nat, i_module "a", str "r")]%string /\
  o_jobs (register_all (List.concat ls) octo_empty) (i_module "a") = Some (str "r").
Proof. exact info_stale. Qed.
Print Assumptions C81_latest_refuted.

(** It need not be named by a certificate below the TAL where it is shown. *)
Theorem C81_own_tal_refuted : forall grow,
  let ls := [[i_cert "a" "p"]; [i_cert "a" "r"]]%string in
  info_authorities grow ls octo_empty = [[mkSite (i_module "a") (str "r")]; []]%string.
Proof. exact info_other_tal. Qed.
Print Assumptions C81_own_tal_refuted.
