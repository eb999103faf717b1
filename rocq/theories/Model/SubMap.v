(** Grouping of rsync addresses: sync/lib/utils.go:18-87. *)
From Coq Require Import String.
From Verif.Model Require Import Base Str Tal Paths.

(** utils.go:18-21 SubMap; a map is a list of entries, in the order in which they
    were made. *)
Inductive submap := Sub (items : list (bytes * submap)) (count : Z).

Fixpoint sub_get (k : bytes) (m : list (bytes * submap)) : option submap :=
  match m with
  | [] => None
  | (k', v) :: m' => if beq k k' then Some v else sub_get k m'
  end.
Fixpoint sub_set (k : bytes) (v : submap) (m : list (bytes * submap)) : list (bytes * submap) :=
  match m with
  | [] => [(k, v)]
  | (k', v') :: m' => if beq k k' then (k', v) :: m' else (k', v') :: sub_set k v m'
  end.

(** utils.go:41-53: the walk.  An entry that is found is a copy whose counter
    changes without being stored (lines 42-45); what is below it is shared. *)
Fixpoint add_split (l : list bytes) (m : list (bytes * submap)) : list (bytes * submap) :=
  match l with
  | [] => m
  | s :: l' =>
      match sub_get s m with
      | Some (Sub sm c) => sub_set s (Sub (add_split l' sm) c) m
      | None => sub_set s (Sub (add_split l' []) (match l' with [] => 1 | _ => 0 end)) m
      end
  end.

(** utils.go:35-53 AddInMap *)
Definition add_in_map (item : bytes) (m : list (bytes * submap)) : list (bytes * submap) :=
  if (8 <? Z.of_nat (length item)) && has_prefix item rsync_scheme
  then add_split (split_on slash (skipn 8 item)) m
  else m.

(** utils.go:77 *)
Definition goes_on (v : submap) (depth : nat) : bool :=
  match v with Sub sm c => (Nat.eqb (length sm) 1 && (c =? 0)) || Nat.ltb depth 1 end.

Section Reduce.
(** The order in which the map met in the given step is iterated. *)
Variable order : nat -> list (bytes * submap) -> list (bytes * submap).

(** utils.go:72-84: the entries of one map; what is to be explored and the
    results. *)
Fixpoint reduce_one (path : bytes) (depth : nat) (l : list (bytes * submap))
  : list (list (bytes * submap) * bytes * nat) * list bytes :=
  match l with
  | [] => ([], [])
  | (k, v) :: l' =>
      let '(q, r) := reduce_one path depth l' in
      if goes_on v depth then (((match v with Sub sm _ => sm end), path ++ [slash] ++ k, S depth) :: q, r)
      else (q, (path ++ [slash] ++ k) :: r)
  end.

(** utils.go:65-85; the three slices explore, explorePath and exploreDepth are
    one list. *)
Fixpoint reduce_loop (fuel : nat) (queue : list (list (bytes * submap) * bytes * nat)) : option (list bytes) :=
  match queue with
  | [] => Some []
  | (m, path, depth) :: queue' =>
      match fuel with
      | O => None
      | S n =>
          let '(q, r) := reduce_one path depth (order n m) in
          match reduce_loop n (queue' ++ q) with
          | None => None
          | Some r' => Some (r ++ r')
          end
      end
  end.

(** A bound on the maps met. *)
Fixpoint sub_size (v : submap) : nat :=
  match v with Sub sm _ => S ((fix go l := match l with [] => O | (_, w) :: l' => (sub_size w + go l')%nat end) sm) end.

(** utils.go:55-87 ReduceMap *)
Definition reduce_map (m : list (bytes * submap)) : option (list bytes) :=
  reduce_loop (sub_size (Sub m 0)) [(m, str "rsync:/", O)].
End Reduce.
