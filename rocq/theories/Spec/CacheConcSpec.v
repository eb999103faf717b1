(** Vocabulary for files written by several fetches at the same time. *)
From Coq Require Import List.
From Verif.Model Require Import Base Str Tal Paths Validator Cache Rrdp CacheConc.
Import ListNotations.

(** [writes jobs l d]: some fetch writes [d] to [l]. *)
Definition writes (jobs : list (list fop)) (l : loc) (d : bytes) : Prop :=
  exists j ign, In j jobs /\ In (ign, OFile l d) j.

(** All fetches came to their end without an error. *)
Definition all_done (ps : list proc) : Prop := Forall (fun p => p = Stopped VOk) ps.

(** [last_write l j d]: the last thing [j] writes to [l] is [d], and an error
    counts. *)
Definition last_write (l : loc) (j : list fop) (d : bytes) : Prop :=
  exists a b, j = a ++ (false, OFile l d) :: b /\ forall ign d', ~ In (ign, OFile l d') b.

(** A file being written. *)
Definition being_written (ps : list proc) (l : loc) : Prop :=
  exists d k r, In (Running (Some (l, d, k)) r) ps.

(** [carries cwd base domain e l d]: the element [e], received by a fetch bound
    to [domain], is to be written to [l], with the octets [d]. *)
Definition carries (cwd : loc) (base domain : bytes) (e : event) (l : loc) (d : bytes) : Prop :=
  exists f, e_path e = rsync_scheme ++ f /\ contains (e_path e) domain = true /\ bad_path f = false /\
    l = resolve cwd (path_join base f) /\ d = e_data e.

(** Fetches, each with its domain and the elements it receives. *)
Definition jobs_of (cwd : loc) (base : bytes) (fetches : list (bytes * list event)) : list (list fop) :=
  map (fun x => job_ops cwd base (fst x) (snd x)) fetches.
