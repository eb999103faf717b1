(** Addresses and places on disk: sync/lib/rsync.go, sync/lib/utils.go,
    sync/lib/fetch.go, and the parts of Go's strings and path/filepath they use. *)
From Coq Require Import String.
From Verif.Model Require Import Base Str Tal TalText.

Definition slash : Z := 47.
Definition dot : bytes := [46].
Definition dotdot : bytes := [46; 46].

(** strings.Split with a separator of one byte; never empty. *)
Fixpoint split_on (sep : Z) (s : bytes) : list bytes :=
  match s with
  | [] => [[]]
  | c :: r =>
      if c =? sep then [] :: split_on sep r
      else match split_on sep r with
           | [] => [[c]]
           | h :: t => (c :: h) :: t
           end
  end.

(** strings.TrimPrefix *)
Definition trim_prefix (s p : bytes) : bytes :=
  if has_prefix s p then skipn (length p) s else s.

(** strings.TrimSuffix *)
Definition trim_suffix (s p : bytes) : bytes :=
  if has_suffix s p then firstn (length s - length p) s else s.

(** strings.Replace(s, old, new, -1) for a non-empty [old].  The fuel is the
    length of [s]. *)
Fixpoint replace_fuel (fuel : nat) (old new s : bytes) : bytes :=
  match fuel, s with
  | O, _ => s
  | _, [] => []
  | S k, c :: r =>
      if has_prefix s old then new ++ replace_fuel k old new (skipn (length old) s)
      else c :: replace_fuel k old new r
  end.
Definition replace_all (old new s : bytes) : bytes := replace_fuel (length s) old new s.

(** sync/lib/rsync.go:44-46 isRsyncURL *)
Definition is_rsync_url (u : bytes) : bool := has_prefix u rsync_scheme.

(** sync/lib/rsync.go:25-33 ExtractFoldersPathFromRsyncURL; [None] is the error. *)
Definition extract_folders (u : bytes) : option bytes :=
  if is_rsync_url u
  then Some (join [slash] (removelast (split_on slash (trim_prefix u rsync_scheme))))
  else None.

(** sync/lib/rsync.go:35-41 ExtractFilePathFromRsyncURL *)
Definition extract_file (u : bytes) : option bytes :=
  if is_rsync_url u then Some (trim_prefix u rsync_scheme) else None.

(** sync/lib/utils.go:23-33 ExtractRsyncDomainModule: the module and the
    domain; the first eight bytes are skipped without looking at them. *)
Definition domain_module (u : bytes) : option (bytes * bytes) :=
  if (8 <? length u)%nat then
    match split_on slash (skipn 8 u) with
    | d :: m :: _ => Some (rsync_scheme ++ d ++ [slash] ++ m, rsync_scheme ++ d ++ [slash])
    | _ => None
    end
  else None.

(** cmd/octorpki/octorpki.go:318-324 ExtractRsyncDomain *)
Definition extract_rsync_domain (u : bytes) : option bytes :=
  if is_rsync_url u then
    match split_on slash (trim_prefix u rsync_scheme) with d :: _ => Some d | [] => None end
  else None.

(** Go's path/filepath.Clean on Unix: the elements that remain, the last one
    first in [st]. *)
Fixpoint clean_comps (rooted : bool) (l st : list bytes) : list bytes :=
  match l with
  | [] => rev st
  | c :: r =>
      if beq c [] || beq c dot then clean_comps rooted r st
      else if beq c dotdot then
        match st with
        | [] => clean_comps rooted r (if rooted then [] else [dotdot])
        | t :: st' => if beq t dotdot then clean_comps rooted r (dotdot :: st)
                      else clean_comps rooted r st'
        end
      else clean_comps rooted r (c :: st)
  end.

Definition is_rooted (p : bytes) : bool := has_prefix p [slash].

Definition clean (p : bytes) : bytes :=
  let body := join [slash] (clean_comps (is_rooted p) (split_on slash p) []) in
  if is_rooted p then slash :: body
  else match body with [] => dot | _ => body end.

(** path/filepath.Join of two elements: leading empty elements are skipped. *)
Definition path_join (a b : bytes) : bytes :=
  match a with
  | [] => match b with [] => [] | _ => clean b end
  | _ => clean (a ++ [slash] ++ b)
  end.

(** The place a path names, as the list of names from the root.  This is the
    operating system's resolution in working directory [cwd] in the absence
    of symbolic links. *)
Definition loc := list bytes.
Definition walk (l : loc) (c : bytes) : loc :=
  if beq c [] || beq c dot then l
  else if beq c dotdot then removelast l
  else l ++ [c].
Definition resolve (cwd : loc) (p : bytes) : loc :=
  fold_left walk (split_on slash p) (if is_rooted p then [] else cwd).

(** sync/lib/fetch.go:37-48 GetLocalPath: the entries of the map in the order
    in which the iteration produces them. *)
Definition map_dir (v : bytes) : bytes := if has_suffix v [slash] then v else v ++ [slash].
Definition get_local_path (m : list (bytes * bytes)) (p : bytes) : bytes :=
  fold_left (fun p kv => replace_all (fst kv) (map_dir (snd kv)) p) m p.

(** sync/lib/fetch.go:24-30: the map of octorpki. *)
Definition octo_map (base : bytes) : list (bytes * bytes) := [(rsync_scheme, base)].

(** sync/lib/fetch.go:78-88 ParseMapDirectory: the pairs in the order given;
    a later pair with the same key replaces the earlier one. *)
Definition parse_map_dir (s : bytes) : list (bytes * bytes) :=
  fold_left (fun m e =>
    match split_on 61 e with
    | [k; v] => filter (fun kv => negb (beq (fst kv) k)) m ++ [(k, v)]
    | _ => m
    end) (split_on 44 s) [].
