(** C83: the flag that maps addresses to directories. *)
From Coq Require Import List ZArith String Permutation.
From Verif.Model Require Import Base Str Paths.
From Verif.Spec Require Import MapSpec.
From Verif.Proofs Require Import StrProofs MapDirProofs.
Import ListNotations.
Open Scope Z_scope.

(** C83. The map has exactly the pairs key=directory between the commas, the
    last one for each key; other pieces are passed over. *)
Theorem C83_pairs : forall s l, pieces s l ->
  NoDup (map fst (parse_map_dir s)) /\ forall k v, In (k, v) (parse_map_dir s) <-> maps_to l k v.
Proof. exact parse_map_spec. Qed.
Print Assumptions C83_pairs.

(** An address below a key has the place below its directory, in whatever order
    the map is iterated, if the key is not there again and no other key is in
    the address or in the place. *)
Theorem C83_place_partial : forall s l m k v d r, pieces s l -> Permutation m (parse_map_dir s) ->
  maps_to l k v -> with_slash v d -> k <> [] -> ~ within k r ->
  (forall k' v', maps_to l k' v' -> k' <> k -> ~ within k' (k ++ r) /\ ~ within k' (d ++ r)) ->
  get_local_path m (k ++ r) = d ++ r.
Proof. exact place_below. Qed.
Print Assumptions C83_place_partial.

(** An address without a key in it is its own place. *)
Theorem C83_no_key : forall s l m p, pieces s l -> Permutation m (parse_map_dir s) ->
  (forall k v, maps_to l k v -> ~ within k p) -> get_local_path m p = p.
Proof. exact place_none. Qed.
Print Assumptions C83_no_key.

Example C83_example :
  let s := str "rsync://a/=./a,x,rsync://b/=/b/,rsync://a/=./c" in
  pieces s [str "rsync://a/=./a"; str "x"; str "rsync://b/=/b/"; str "rsync://a/=./c"] /\
  parse_map_dir s = [(str "rsync://b/", str "/b/"); (str "rsync://a/", str "./c")] /\
  get_local_path (parse_map_dir s) (str "rsync://a/m/f.roa") = str "./c/m/f.roa" /\
  get_local_path (parse_map_dir s) (str "rsync://b/m/f.roa") = str "/b/m/f.roa".
Proof.
  split.
  - apply pieces_split.
  - vm_compute. auto.
Qed.

(** If one key is a part of another, the place depends on the order in which
    the map is iterated, which Go chooses at random. *)
Theorem C83_order_refuted :
  let s := str "rsync://a/=./x,rsync://a/b/=./y" in
  exists m1 m2 p, Permutation m1 (parse_map_dir s) /\ Permutation m2 (parse_map_dir s) /\
    get_local_path m1 p = str "./x/b/f.roa" /\ get_local_path m2 p = str "./y/f.roa".
Proof.
  exists [(str "rsync://a/", str "./x"); (str "rsync://a/b/", str "./y")], [(str "rsync://a/b/", str "./y"); (str "rsync://a/", str "./x")],
    (str "rsync://a/b/f.roa").
  split; [apply Permutation_refl|]. split; [apply perm_swap|]. vm_compute. auto.
Qed.
Print Assumptions C83_order_refuted.

(** A directory with the sign = in its name is passed over without a word. *)
Theorem C83_equals_refuted : parse_map_dir (str "rsync://a/=/var/x=y/") = [].
Proof. vm_compute. reflexivity. Qed.
Print Assumptions C83_equals_refuted.
