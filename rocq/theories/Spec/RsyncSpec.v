(** What rsync prints and where it puts files, for the options -vrlt. *)
From Coq Require Import List ZArith String.
From Verif.Model Require Import Base Str TalText Paths.
From Verif.Spec Require Import PathSpec.
Import ListNotations.
Open Scope Z_scope.

(** The output is lines, each with its end; a line fits into 64 KiB. *)
Definition line_ok (l : bytes) : Prop := ~ In 10 l /\ Z.of_nat (length l) < 65536 /\ ~ (exists r, l = r ++ [13]).
Definition printed (lines : list bytes) : bytes := concat (map (fun l => l ++ [10]) lines).

(** The name of an object of a repository *)
Definition object_name (l : bytes) : Prop :=
  exists n e, l = n ++ str "." ++ e /\ In e (map str ["cer"; "mft"; "crl"; "roa"; "gbr"]%string).
Definition of_deletion (l : bytes) : Prop := exists r, l = str "deleting " ++ r.

(** The part of a source that printed names are relative to: all of it, if it
    ends with a slash or is a host or a module; else without the last name. *)
Inductive relative_to : bytes -> bytes -> Prop :=
| rel_slash names : relative_to (address names ++ [slash]) (address names)
| rel_module names : names <> [] -> (length names <= 2)%nat -> Forall (fun c => ~ In slash c) names -> last names [] <> [] ->
    relative_to (address names) (address names)
| rel_name names x : (2 <= length names)%nat -> Forall (fun c => ~ In slash c) (names ++ [x]) -> x <> [] ->
    relative_to (address (names ++ [x])) (address names).

(** The place of what is printed as [line], when [dest] is the directory given. *)
Definition put_at (dest : loc) (line : bytes) : loc := fold_left walk (split_on slash line) dest.
