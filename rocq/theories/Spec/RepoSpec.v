(** Vocabulary for the repository mode: which files the validator is given. *)
From Coq Require Import List ZArith.
From Verif.Model Require Import Base Str Ber Tal Validator Explore Repo.
From Verif.Spec Require Import Discovery.
Import ListNotations.
Open Scope Z_scope.

(** The text after the last dot of a name, the whole name without a dot. *)
Inductive ending : bytes -> bytes -> Prop :=
| end_whole x : ~ In 46 x -> ending x x
| end_dot a x : ~ In 46 x -> ending (a ++ 46 :: x) x.

Section Disk.
Variable disk : bytes -> option bytes.
Variable read_dir : bytes -> option (list dirent).

(** [d] are the contents of [f], which was taken from the queue as one of [P]
    or is a regular file in the directory named by a manifest file of [P]. *)
Definition handed (P : list pkifile) (f : pkifile) (d : bytes) : Prop :=
  (In f P /\ exists raw, holds disk f raw d) \/
  exists p l e raw, In p P /\ f_type p = TMft /\ f_parent f = Some p /\
    read_dir (fd_repo (f_desc p)) = Some l /\ In e l /\ de_dir e = false /\
    de_data e = Some raw /\ ber2der raw = BOk d /\ f_path f = fd_repo (f_desc p) ++ de_name e /\
    (f_type f = TRoa <-> ending (de_name e) [114; 111; 97]) /\
    (f_type f = TCer <-> ending (de_name e) [99; 101; 114]) /\
    (f_type f = TMft <-> ending (de_name e) [109; 102; 116]) /\
    (f_type f = TCrl <-> ending (de_name e) [99; 114; 108]).

(** A bound on the number of files that an object can name. *)
Definition names_bound (dec_cert : bytes -> option cert) (dec_mft : bytes -> option mft) (d : bytes) : nat :=
  match dec_cert d with Some c => S (length (c_crldp c)) | None => 0 end +
  match dec_mft d with Some m => length (mft_files m) | None => 0 end.
Definition dir_bound (dec_cert : bytes -> option cert) (dec_mft : bytes -> option mft) (r : bytes) : nat :=
  match read_dir r with
  | Some l => list_sum (map (fun e => match de_data e with
                                      | Some raw => match ber2der raw with BOk d => names_bound dec_cert dec_mft d | _ => 0 end
                                      | None => 0
                                      end) l)%nat
  | None => 0%nat
  end.
End Disk.
