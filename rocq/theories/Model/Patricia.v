(** The prefix tree of vendor/github.com/kentik/patricia (int64_tree): trees
    are arrays of nodes that refer to each other by index.  tree_v4.go and
    tree_v6_generated.go are the same text for two word types; the word type
    is a parameter here.

    Only what ov/ov.go uses: NewTree, Add without match function,
    FindTagsWithFilter. *)
From Verif.Model Require Import Base NetIP.

(** Outcomes: a result, a panic of the program, a write through a pointer into
    an array that [append] has replaced, not enough fuel. *)
Inductive tres (A : Type) :=
| TOk (x : A)
| TPanic
| TStale
| TFuel.
Arguments TOk {A} x.
Arguments TPanic {A}.
Arguments TStale {A}.
Arguments TFuel {A}.
Definition tbind {A B} (x : tres A) (f : A -> tres B) : tres B :=
  match x with TOk a => f a | TPanic => TPanic | TStale => TStale | TFuel => TFuel end.
Notation "'do' x <- e ; f" := (tbind e (fun x => f)) (at level 200, x pattern, e at level 100, f at level 200).

(** Go's [s[i] = f(s[i])]. *)
Fixpoint upd {A} (l : list A) (i : nat) (f : A -> A) : list A :=
  match l, i with
  | [], _ => []
  | x :: r, O => f x :: r
  | x :: r, S k => x :: upd r k f
  end.

Section Tree.
  (** Words of bits counted from the left: the number of equal leading bits up
      to a length, left shift, the leftmost bit. *)
  Variable W : Type.
  Variable w_zero : W.
  Variable w_match : W -> W -> Z -> Z.
  Variable w_shl : W -> Z -> W.
  Variable w_left : W -> bool.

  (** address_v4.go:10-13 IPv4Address, address_v6.go:10-14 IPv6Address *)
  Record paddr := mkPA { a_word : W; a_len : Z }.
  (** address_v4.go:38-41, address_v6.go:33-35 ShiftLeft *)
  Definition a_shift (a : paddr) (n : Z) : paddr := mkPA (w_shl (a_word a) n) (a_len a - n).

  (** tree_node_v4.go:13-19, tree_node_v6.go:13-20 *)
  Record tnode := mkNode { n_left : nat; n_right : nat; n_prefix : W; n_len : Z; n_tags : nat }.
  (** tree_v4.go:12-16; [t_cap] is the capacity of the array, [t_avail] the
      stack of free indexes with its top first, [t_tags] the map of tags (0 for
      missing keys). *)
  Record ptree := mkTree { t_nodes : list tnode; t_cap : nat; t_avail : list nat; t_tags : Z -> Z }.

  (** tree_v4.go:19-25 NewTreeV4: index 0 is skipped, 1 is the root. *)
  Definition new_tree : ptree :=
    mkTree [mkNode 0 0 w_zero 0 0; mkNode 0 0 w_zero 0 0] 2 [] (fun _ => 0).

  (** tree_node_v4.go:22-35, tree_node_v6.go:22-36 MatchCount *)
  Definition match_count (n : tnode) (a : paddr) : Z :=
    w_match (n_prefix n) (a_word a) (if n_len n <? a_len a then n_len n else a_len a).
  (** tree_node_v4.go:38-41 ShiftPrefix *)
  Definition shift_prefix (k : Z) (n : tnode) : tnode :=
    mkNode (n_left n) (n_right n) (w_shl (n_prefix n) k) (n_len n - k) (n_tags n).
  Definition set_left (i : nat) (n : tnode) : tnode := mkNode i (n_right n) (n_prefix n) (n_len n) (n_tags n).
  Definition set_right (i : nat) (n : tnode) : tnode := mkNode (n_left n) i (n_prefix n) (n_len n) (n_tags n).
  Definition inc_tags (n : tnode) : tnode := mkNode (n_left n) (n_right n) (n_prefix n) (n_len n) (S (n_tags n)).

  Definition with_nodes (t : ptree) (l : list tnode) : ptree := mkTree l (t_cap t) (t_avail t) (t_tags t).
  Definition upd_node (t : ptree) (i : nat) (f : tnode -> tnode) : ptree := with_nodes t (upd (t_nodes t) i f).

  (** The key of a tag, a uint64: [(uint64(nodeIndex)<<32) + uint64(i)]. *)
  Definition tag_key (i k : nat) : Z := (Z.of_nat i * 2 ^ 32 + Z.of_nat k) mod 2 ^ 64.

  (** tree_v4.go:57-82 addTag with matchFunc nil and replaceFirst false *)
  Definition add_tag (t : ptree) (tag : Z) (i : nat) : tres ptree :=
    match nth_error (t_nodes t) i with
    | None => TPanic
    | Some n =>
        let key := tag_key i (n_tags n) in
        TOk (mkTree (upd (t_nodes t) i inc_tags) (t_cap t) (t_avail t)
                    (fun k => if k =? key then tag else t_tags t k))
    end.

  (** tree_v4.go:86-102 tagsForNode *)
  Definition tags_for_node (t : ptree) (i : nat) : list Z :=
    match nth_error (t_nodes t) i with
    | None => []
    | Some n => map (fun k => t_tags t (tag_key i k)) (seq 0 (n_tags n))
    end.

  (** tree_v4_manual.go:14-25 newNode.  An append beyond the capacity moves the
      array while [add] holds pointers into the old one. *)
  Definition new_node (t : ptree) (w : W) (len : Z) : tres (ptree * nat) :=
    let n := mkNode 0 0 w len 0 in
    match t_avail t with
    | i :: r => TOk (mkTree (upd (t_nodes t) i (fun _ => n)) (t_cap t) r (t_tags t), i)
    | [] =>
        if Nat.ltb (length (t_nodes t)) (t_cap t)
        then TOk (mkTree (t_nodes t ++ [n]) (t_cap t) [] (t_tags t), length (t_nodes t))
        else TStale
    end.

  (** tree_v4.go:170-174: capacity *)
  Definition grow (t : ptree) : ptree :=
    if Nat.ltb (length (t_avail t) + t_cap t) (length (t_nodes t) + 10)
    then mkTree (t_nodes t) ((t_cap t + 1) * 2) (t_avail t) (t_tags t)
    else t.

  (** The new child of [p] in place of [i] (tree_v4.go:244-252, 312-320). *)
  Definition replace_child (t : ptree) (p i j : nat) : tres ptree :=
    match nth_error (t_nodes t) p with
    | None => TPanic
    | Some n =>
        if Nat.eqb (n_left n) i then TOk (upd_node t p (set_left j))
        else if Nat.eqb (n_right n) i then TOk (upd_node t p (set_right j))
        else TPanic
    end.

  (** A new leaf with the rest of the address (tree_v4.go:189-192, 265-268). *)
  Definition add_leaf (t : ptree) (a : paddr) (tag : Z) : tres (ptree * nat) :=
    do (t1, i) <- new_node t (a_word a) (a_len a);
    do t2 <- add_tag t1 tag i;
    TOk (t2, i).

  (** tree_v4.go:205-322: the loop of add at node [i] below [p]. *)
  Fixpoint add_loop (fuel : nat) (t : ptree) (i p : nat) (a : paddr) (tag : Z) : tres ptree :=
    match fuel with
    | O => TFuel
    | S fuel' =>
        if Nat.eqb i 0 then TPanic else
        match nth_error (t_nodes t) i with
        | None => TPanic
        | Some n =>
            if n_len n =? 0 then TPanic else
            let m := match_count n a in
            if m =? 0 then TPanic else
            if m =? a_len a then
              if m =? n_len n then add_tag t tag i
              else
                do (t1, j) <- add_leaf t a tag;
                let t2 := upd_node t1 i (shift_prefix m) in
                let t3 := upd_node t2 j (if negb (w_left (w_shl (n_prefix n) m)) then set_left i else set_right i) in
                replace_child t3 p i j
            else if m =? n_len n then
              let a' := a_shift a m in
              if negb (w_left (a_word a')) then
                if Nat.eqb (n_left n) 0 then
                  do (t1, j) <- add_leaf t a' tag; TOk (upd_node t1 i (set_left j))
                else add_loop fuel' t (n_left n) i a' tag
              else
                if Nat.eqb (n_right n) 0 then
                  do (t1, j) <- add_leaf t a' tag; TOk (upd_node t1 i (set_right j))
                else add_loop fuel' t (n_right n) i a' tag
            else
              do (t1, c) <- new_node t (a_word a) m;
              let a' := a_shift a m in
              do (t2, j) <- add_leaf t1 a' tag;
              let t3 := upd_node t2 i (shift_prefix m) in
              let t4 := if negb (w_left (w_shl (n_prefix n) m))
                        then upd_node (upd_node t3 c (set_left i)) c (set_right j)
                        else upd_node (upd_node t3 c (set_right i)) c (set_left j) in
              replace_child t4 p i c
        end
    end.

  (** tree_v4.go:168-323 add *)
  Definition tree_add (t0 : ptree) (a : paddr) (tag : Z) : tres ptree :=
    let t := grow t0 in
    match nth_error (t_nodes t) 1 with
    | None => TPanic
    | Some root =>
        if a_len a =? 0 then add_tag t tag 1
        else if negb (w_left (a_word a)) then
          if Nat.eqb (n_left root) 0 then
            do (t1, j) <- add_leaf t a tag; TOk (upd_node t1 1 (set_left j))
          else add_loop (S (Z.to_nat (a_len a))) t (n_left root) 1 a tag
        else
          if Nat.eqb (n_right root) 0 then
            do (t1, j) <- add_leaf t a tag; TOk (upd_node t1 1 (set_right j))
          else add_loop (S (Z.to_nat (a_len a))) t (n_right root) 1 a tag
    end.

  (** tree_v4.go:517-547: the loop of FindTagsWithFilterAppend.  The result is
      the tags for which the filter is called, in order; the filter does not
      influence the traversal. *)
  Fixpoint find_loop (fuel : nat) (t : ptree) (i : nat) (a : paddr) (ret : list Z) : tres (list Z) :=
    match fuel with
    | O => TFuel
    | S fuel' =>
        if Nat.eqb i 0 then TOk ret else
        match nth_error (t_nodes t) i with
        | None => TPanic
        | Some n =>
            let m := match_count n a in
            if m <? n_len n then TOk ret
            else
              let ret := if Nat.ltb 0 (n_tags n) then ret ++ tags_for_node t i else ret in
              if m =? a_len a then TOk ret
              else
                let a' := a_shift a m in
                find_loop fuel' t (if negb (w_left (a_word a')) then n_left n else n_right n) a' ret
        end
    end.

  (** tree_v4.go:497-516 *)
  Definition find_tags (t : ptree) (a : paddr) : tres (list Z) :=
    match nth_error (t_nodes t) 1 with
    | None => TPanic
    | Some root =>
        let ret := if Nat.ltb 0 (n_tags root) then tags_for_node t 1 else [] in
        if a_len a =? 0 then TOk ret
        else find_loop (S (Z.to_nat (a_len a))) t (if negb (w_left (a_word a)) then n_left root else n_right root) a ret
    end.
End Tree.

Arguments mkPA {W}.
Arguments a_word {W}.
Arguments a_len {W}.
Arguments mkNode {W}.
Arguments n_left {W}.
Arguments n_right {W}.
Arguments n_prefix {W}.
Arguments n_len {W}.
Arguments n_tags {W}.
Arguments mkTree {W}.
Arguments t_nodes {W}.
Arguments t_cap {W}.
Arguments t_avail {W}.
Arguments t_tags {W}.

(** bits.LeadingZeros32, bits.LeadingZeros64 *)
Definition clz (n x : Z) : Z := if x =? 0 then n else n - 1 - Z.log2 x.

(** Words of the IPv4 tree: uint32. *)
Definition match4 (p a len : Z) : Z :=
  let m := clz 32 (Z.lxor p a) in if len <? m then len else m.
Definition shl4 (x n : Z) : Z := (x * 2 ^ n) mod 2 ^ 32.
Definition left4 (x : Z) : bool := 2 ^ 31 <=? x.

(** Words of the IPv6 tree: two uint64 (tree_node_v6.go:22-36,
    address_v6.go:52-65, 81-84). *)
Definition match6 (p a : Z * Z) (len : Z) : Z :=
  let m := clz 64 (Z.lxor (fst p) (fst a)) in
  let m := if (m =? 64) && (64 <? len) then m + clz 64 (Z.lxor (snd p) (snd a)) else m in
  if len <? m then len else m.
Definition shl6 (x : Z * Z) (n : Z) : Z * Z :=
  let (l, r) := x in
  if 64 <=? n then ((r * 2 ^ (n - 64)) mod 2 ^ 64, 0)
  else (Z.lor ((l * 2 ^ n) mod 2 ^ 64) (r / 2 ^ (64 - n)), (r * 2 ^ n) mod 2 ^ 64).
Definition left6 (x : Z * Z) : bool := 2 ^ 63 <=? fst x.

Definition tree4 := ptree Z.
Definition tree6 := ptree (Z * Z).
Definition new4 : tree4 := new_tree Z 0.
Definition new6 : tree6 := new_tree (Z * Z) (0, 0).
Definition add4 : tree4 -> paddr Z -> Z -> tres tree4 := tree_add Z match4 shl4 left4.
Definition add6 : tree6 -> paddr (Z * Z) -> Z -> tres tree6 := tree_add (Z * Z) match6 shl6 left6.
Definition find4 : tree4 -> paddr Z -> tres (list Z) := find_tags Z match4 shl4 left4.
Definition find6 : tree6 -> paddr (Z * Z) -> tres (list Z) := find_tags (Z * Z) match6 shl6 left6.
