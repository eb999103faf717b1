(** octorpki as a server: the validation loop and the answers to requests for
    the list, cmd/octorpki/octorpki.go.  The loop is that of Model/Octo.v. *)
From Verif.Model Require Import Base Str Tal Validator Output Octo.

(** octorpki.go:1530-1534 newROAList *)
Definition new_list : roalist := mkList (mkMeta 0 0 0 [] []) [].

(** octorpki.go:204-244: the fields Stable, HasPreviousStable and ROAList *)
Record srv := mkSrv { sv_stable : bool; sv_hasprev : bool; sv_list : roalist }.
(** octorpki.go:1470-1491 NewOctoRPKI *)
Definition srv_start : srv := mkSrv false false new_list.

(** Assignments to them by the loop, in order, and calls of output. *)
Inductive sev := SFlags (stable hasprev : bool) | SList (l : roalist) | SOutput.

(** The trace of the loop with the lists that its validations make: line 1134
    is the last assignment of a validation. *)
Fixpoint publish (ls : list roalist) (tr : list lev) : list sev :=
  match tr with
  | [] => []
  | Obs a b :: r => SFlags a b :: publish ls r
  | Output :: r => SOutput :: publish ls r
  | Validated _ :: r =>
      match ls with
      | [] => []
      | l :: ls' => SList l :: publish ls' r
      end
  end.

(** A validation: the modules that it registers (1107), the list that it makes
    (1134). *)
Definition pass : Type := list bytes * roalist.
(** octorpki.go:1536-1620 validationLoop *)
Definition server_run (c : lcfg) (ps : list pass) : list sev :=
  publish (map snd ps) (fst (fst (loop_run c (map fst ps) lstart))).

(** octorpki.go:1134, 1189-1194, 1567-1568, 1581, 1613 *)
Definition srv_step (s : srv) (e : sev) : srv :=
  match e with
  | SFlags a b => mkSrv a b (sv_list s)
  | SList l => mkSrv (sv_stable s) (sv_hasprev s) l
  | SOutput => s
  end.
Definition srv_after (evs : list sev) : srv := fold_left srv_step evs srv_start.

(** octorpki.go:1203-1236 ServeROAs: the flags are read (1204) when the state is
    [s1], the list (1219) when it is [s2].  Also 1629-1645 output, which writes
    the list of the state. *)
Definition answer_roas (sha256 : bytes -> bytes) (c : lcfg) (s1 s2 : srv) (if_none_match : bytes) : answer :=
  serve_roas sha256 (sv_stable s1) (l_wait c) (sv_hasprev s1) (sv_list s2) if_none_match.
