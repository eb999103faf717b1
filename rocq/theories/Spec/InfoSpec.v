(** Notions for the information page. *)
From Coq Require Import List ZArith.
From Verif.Model Require Import Base Str Paths Validator Octo Info.
Import ListNotations.

(** The certificates that are registered during a validation, in order: the
    number of the TAL, the module and the notification address. *)
Fixpoint regs_tal (i : nat) (l : list (list (sia_method * bytes))) (o : octo) : list (nat * bytes * bytes) :=
  match l with
  | [] => []
  | sia :: r => match registered_as sia o with
                | Some (m, p) => [(i, m, p)]
                | None => []
                end ++ regs_tal i r (register sia o)
  end.
Fixpoint regs (i : nat) (ls : list (list (list (sia_method * bytes)))) (o : octo) : list (nat * bytes * bytes) :=
  match ls with
  | [] => []
  | l :: r => regs_tal i l o ++ regs (S i) r (register_all l o)
  end.

(** The first registration of the module is the one below TAL number [i]. *)
Definition first_below (i : nat) (m : bytes) (l : list (nat * bytes * bytes)) : Prop :=
  exists a p b, l = a ++ (i, m, p) :: b /\ forall j q, ~ In (j, m, q) a.
