(** Notions for the main loop. *)
From Coq Require Import List ZArith String.
From Verif.Model Require Import Base Str Paths Cache Octo.
From Verif.Spec Require Import PathSpec.
Import ListNotations.
Open Scope Z_scope.

(** [module] is a module of the rsync host [h]. *)
Definition module_of (h module : bytes) : Prop :=
  ~ In slash h /\ exists m, ~ In slash m /\ module = str "rsync://" ++ h ++ str "/" ++ m.

(** The modules registered by validations number 1 to [n]. *)
Definition known (l : list (list bytes)) (k : bytes) : Prop := exists f, In f l /\ In k f.

(** The last validation of the sequence registered nothing new and was not the
    first. *)
Definition quiet (l : list (list bytes)) (last : list bytes) : Prop :=
  l <> [] /\ forall k, In k last -> known l k.

(** The validations done before the end of a trace. *)
Definition validations (tr : list lev) : list (list bytes) :=
  flat_map (fun e => match e with Validated f => [f] | _ => [] end) tr.

(** The observable values of a trace, in order. *)
Definition observed (tr : list lev) : list (bool * bool) :=
  flat_map (fun e => match e with Obs a b => [(a, b)] | _ => [] end) tr.

(** Some validation was quiet, or there were more than the maximum. *)
Definition earlier_stable (c : lcfg) (l : list (list bytes)) : Prop :=
  (exists a f b, l = a ++ f :: b /\ quiet a f) \/ l_max c < Z.of_nat (length l).

(** Each validation (but the first) registers something new. *)
Definition never_quiet (l : list (list bytes)) : Prop := forall a f b, l = a ++ f :: b -> ~ quiet a f.
