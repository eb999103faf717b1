(** Names and places in the cache. *)
From Coq Require Import List ZArith String.
From Verif.Model Require Import Base Str Paths Cache.
Import ListNotations.
Open Scope Z_scope.

(** A name of a directory entry. *)
Definition name (c : bytes) : Prop := c <> [] /\ c <> dot /\ c <> dotdot /\ ~ In slash c.

(** [l] is strictly below [b]. *)
Definition below (b l : loc) : Prop := exists names, names <> [] /\ Forall name names /\ l = b ++ names.

(** The address of a file: the scheme, then names separated by slashes. *)
Definition address (names : list bytes) : bytes := str "rsync://" ++ TalText.join [slash] names.

(** A file system has a root directory. *)
Definition rooted_fs (s : fs) : Prop := s [] = Some Dir.
