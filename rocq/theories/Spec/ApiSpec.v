(** Vocabulary for the remote interface: what is served for a path, and what
    the validator is given of a stream of resources. *)
From Coq Require Import List ZArith.
From Verif.Model Require Import Base Str Ber Tal Validator Explore Repo Api.
From Verif.Spec Require Import Discovery RepoSpec.
Import ListNotations.
Open Scope Z_scope.

(** The cache that the remote interface amounts to: the trust anchor locators
    exploration starts from are read from the disk, everything else is asked
    for. *)
Definition served (init : list fdesc) (read_file get_resource : bytes -> option bytes) (k : bytes) : option bytes :=
  match find (fun x => beq (fd_path x) k) init with
  | Some x => match fd_type x with TTal => read_file k | _ => get_resource k end
  | None => get_resource k
  end.

(** [d] is what is made of the data [raw] of a resource: its conversion to DER,
    nothing when it cannot be converted. *)
Definition converted (raw d : bytes) : Prop :=
  ber2der raw = BOk d \/ ber2der raw = BErr /\ d = [].

(** The file [f] stands for the resource with path [path] in the repository of
    the manifest file [p]; it is typed by what follows the last dot. *)
Definition stands_for (p f : pkifile) (path : bytes) : Prop :=
  f_parent f = Some p /\ f_path f = path /\ fd_repo (f_desc f) = fd_repo (f_desc p) /\
  fd_trust (f_desc f) = false /\ fd_hash (f_desc f) = None /\
  (f_type f = TRoa <-> ending path [114; 111; 97]) /\
  (f_type f = TCer <-> ending path [99; 101; 114]) /\
  (f_type f = TMft <-> ending path [109; 102; 116]) /\
  (f_type f = TCrl <-> ending path [99; 114; 108]) /\
  f_type f <> TTal.

(** What the validator may be given: files of the queue, and resources of the
    repositories named by the manifest files of the queue. *)
Definition received (disk : bytes -> option bytes) (get_repository : bytes -> option stream)
  (P : list pkifile) (f : pkifile) (d : bytes) : Prop :=
  (In f P /\ exists raw, holds disk f raw d) \/
  exists p r path raw, In p P /\ f_type p = TMft /\ get_repository (fd_repo (f_desc p)) = Some r /\
    In (path, raw) (st_list r) /\ converted raw d /\ stands_for p f path.

(** A bound on the number of files that a repository can name. *)
Definition stream_bound (dec_cert : bytes -> option cert) (dec_mft : bytes -> option mft)
  (get_repository : bytes -> option stream) (k : bytes) : nat :=
  match get_repository k with
  | Some r => list_sum (map (fun x => names_bound dec_cert dec_mft match ber2der (snd x) with BOk d => d | _ => [] end) (st_list r))
  | None => 0%nat
  end.
