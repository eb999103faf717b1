(** A binary trie over bit lists: insertion adds one tag at one place, and a
    walk along an address collects the tags of its prefixes. *)
From Coq Require Import Lia.
From Verif.Model Require Import Base.

Inductive trie :=
| TLeaf
| TNode (i : nat) (b : list bool) (ts : list Z) (l r : trie).

Fixpoint lcp (b a : list bool) : nat :=
  match b, a with
  | x :: b', y :: a' => if Bool.eqb x y then S (lcp b' a') else 0%nat
  | _, _ => 0%nat
  end.

Definition bits_eqb (a b : list bool) : bool := if list_eq_dec Bool.bool_dec a b then true else false.

Lemma bits_eqb_eq : forall a b, bits_eqb a b = true <-> a = b.
Proof. intros a b. unfold bits_eqb. destruct (list_eq_dec _ a b); split; congruence. Qed.
Lemma bits_eqb_neq : forall a b, bits_eqb a b = false <-> a <> b.
Proof. intros a b. unfold bits_eqb. destruct (list_eq_dec _ a b); split; congruence. Qed.

Lemma lcp_le : forall b a, (lcp b a <= length b)%nat /\ (lcp b a <= length a)%nat.
Proof.
  induction b as [|x b IH]; intros [|y a]; cbn; try lia.
  destruct (Bool.eqb x y); cbn; [|lia]. specialize (IH a). lia.
Qed.
Lemma lcp_firstn : forall b a, firstn (lcp b a) b = firstn (lcp b a) a.
Proof.
  induction b as [|x b IH]; intros [|y a]; cbn; try reflexivity.
  destruct (Bool.eqb x y) eqn:E; cbn; [|reflexivity]. apply Bool.eqb_prop in E. subst. now rewrite IH.
Qed.
(** [b] is a prefix of [a] iff all of it matches. *)
Lemma lcp_all : forall b a, lcp b a = length b <-> exists r, a = b ++ r.
Proof.
  induction b as [|x b IH]; intros a.
  - cbn. split; [intros _; now exists a | reflexivity].
  - destruct a as [|y a]; cbn; [split; [discriminate | intros [r H]; discriminate]|].
    destruct (Bool.eqb x y) eqn:E.
    + apply Bool.eqb_prop in E. subst y. split.
      * intros H. injection H as H. apply IH in H. destruct H as [r ->]. now exists r.
      * intros [r H]. injection H as H. f_equal. apply IH. now exists r.
    + split; [discriminate|]. intros [r H]. injection H as H1 H2. subst. rewrite Bool.eqb_reflx in E. discriminate.
Qed.
Lemma lcp_sym : forall b a, lcp b a = lcp a b.
Proof.
  induction b as [|x b IH]; intros [|y a]; cbn; try reflexivity.
  rewrite IH. destruct x, y; reflexivity.
Qed.
Lemma lcp_skip_head : forall b a x y b' a',
  skipn (lcp b a) b = x :: b' -> skipn (lcp b a) a = y :: a' -> x <> y.
Proof.
  induction b as [|x b IH]; intros [|y a] u v b' a'; cbn; try discriminate.
  destruct (Bool.eqb x y) eqn:E; cbn.
  - apply IH.
  - intros H1 H2. injection H1 as <- _. injection H2 as <- _. intros ->. now rewrite Bool.eqb_reflx in E.
Qed.

Definition head_set (a : list bool) : bool := match a with x :: _ => x | [] => false end.

(** The insertion of [x] at [a]; new nodes get the indexes [n] and [S n]. *)
Fixpoint ins (n : nat) (t : trie) (a : list bool) (x : Z) : trie :=
  match t with
  | TLeaf => TNode n a [x] TLeaf TLeaf
  | TNode i b ts l r =>
      let m := lcp b a in
      if Nat.eqb m (length a) then
        if Nat.eqb m (length b) then TNode i b (ts ++ [x]) l r
        else
          let old := TNode i (skipn m b) ts l r in
          if head_set (skipn m b) then TNode n a [x] TLeaf old else TNode n a [x] old TLeaf
      else if Nat.eqb m (length b) then
        if head_set (skipn m a) then TNode i b ts l (ins n r (skipn m a) x)
        else TNode i b ts (ins n l (skipn m a) x) r
      else
        let old := TNode i (skipn m b) ts l r in
        let new := TNode (S n) (skipn m a) [x] TLeaf TLeaf in
        if head_set (skipn m b) then TNode n (firstn m a) [] new old
        else TNode n (firstn m a) [] old new
  end.

(** The tags at exactly [q]. *)
Fixpoint tags_at (t : trie) (q : list bool) : list Z :=
  match t with
  | TLeaf => []
  | TNode i b ts l r =>
      if bits_eqb b q then ts
      else if Nat.eqb (lcp b q) (length b) then
        if head_set (skipn (length b) q) then tags_at r (skipn (length b) q) else tags_at l (skipn (length b) q)
      else []
  end.

(** The walk along [a]. *)
Fixpoint walk (t : trie) (a : list bool) : list Z :=
  match t with
  | TLeaf => []
  | TNode i b ts l r =>
      if Nat.eqb (lcp b a) (length b) then
        ts ++ (if Nat.eqb (length b) (length a) then []
               else if head_set (skipn (length b) a) then walk r (skipn (length b) a)
               else walk l (skipn (length b) a))
      else []
  end.

(** Below a child pointer, prefixes are not empty and start with the child's bit. *)
Definition starts (d : bool) (t : trie) : Prop :=
  match t with TLeaf => True | TNode _ b _ _ _ => b <> [] /\ head_set b = d end.
Fixpoint tgood (t : trie) : Prop :=
  match t with
  | TLeaf => True
  | TNode _ _ _ l r => starts false l /\ starts true r /\ tgood l /\ tgood r
  end.

Lemma ins_starts : forall n t a x d, starts d t -> tgood t -> a <> [] -> head_set a = d -> starts d (ins n t a x).
Proof.
  intros n t a x d S G A H. destruct t as [|i b ts l r]; cbn [ins].
  { split; assumption. }
  destruct S as [B Hb].
  assert (M : (0 < lcp b a)%nat).
  { destruct b as [|y b]; [congruence|]. destruct a as [|z a]; [congruence|]. cbn in Hb, H. subst.
    cbn. rewrite Bool.eqb_reflx. lia. }
  destruct (Nat.eqb (lcp b a) (length a)); [destruct (Nat.eqb (lcp b a) (length b))|destruct (Nat.eqb (lcp b a) (length b))].
  - split; assumption.
  - destruct (head_set (skipn (lcp b a) b)); split; assumption.
  - destruct (head_set (skipn (lcp b a) a)); split; assumption.
  - destruct (head_set (skipn (lcp b a) b)); (destruct a as [|y a]; [congruence|]);
      (destruct (lcp b (y :: a)) as [|k] eqn:E; [lia|]); cbn; (split; [discriminate | exact H]).
Qed.

Lemma skip_nonempty : forall {A} m (l : list A), (m < length l)%nat -> skipn m l <> [].
Proof. intros A m l H E. apply (f_equal (@length A)) in E. rewrite skipn_length in E. cbn in E. lia. Qed.

Lemma ins_good : forall t n a x, tgood t -> tgood (ins n t a x).
Proof.
  induction t as [|i b ts l IHl r IHr]; intros n a x G; cbn [ins].
  { cbn. tauto. }
  destruct G as (Sl & Sr & Gl & Gr). pose proof (lcp_le b a) as [L1 L2].
  destruct (Nat.eqb (lcp b a) (length a)) eqn:E1; [destruct (Nat.eqb (lcp b a) (length b)) eqn:E2|
    destruct (Nat.eqb (lcp b a) (length b)) eqn:E2]; rewrite ?Nat.eqb_eq, ?Nat.eqb_neq in *.
  - cbn. tauto.
  - assert (NE : skipn (lcp b a) b <> []) by (apply skip_nonempty; lia).
    destruct (head_set (skipn (lcp b a) b)) eqn:Hh; cbn [tgood starts]; tauto.
  - assert (NE : skipn (lcp b a) a <> []) by (apply skip_nonempty; lia).
    destruct (head_set (skipn (lcp b a) a)) eqn:Hh; cbn [tgood].
    + repeat split; auto. apply ins_starts; auto.
    + repeat split; auto. apply ins_starts; auto.
  - assert (NB : skipn (lcp b a) b <> []) by (apply skip_nonempty; lia).
    assert (NA : skipn (lcp b a) a <> []) by (apply skip_nonempty; lia).
    destruct (skipn (lcp b a) b) as [|u b'] eqn:EB; [congruence|].
    destruct (skipn (lcp b a) a) as [|v a'] eqn:EA; [congruence|].
    pose proof (lcp_skip_head _ _ _ _ _ _ EB EA) as D.
    cbn [head_set]. destruct u, v; try congruence; cbn [tgood starts head_set];
      repeat split; auto; discriminate.
Qed.

Lemma lcp_self : forall b r, lcp b (b ++ r) = length b.
Proof. intros. apply lcp_all. now exists r. Qed.
Lemma skipn_app_len : forall {A} (b r : list A), skipn (length b) (b ++ r) = r.
Proof. induction b; [reflexivity | exact IHb]. Qed.

Definition at_ins (q a : list bool) (x : Z) : list Z := if bits_eqb q a then [x] else [].

Lemma tags_at_starts : forall t d q, starts d t -> (q = [] \/ head_set q <> d) -> tags_at t q = [].
Proof.
  intros [|i b ts l r] d q S Q; [reflexivity|]. destruct S as [B H]. cbn [tags_at].
  destruct b as [|y b]; [congruence|]. cbn in H. subst y.
  destruct q as [|z q].
  - destruct (bits_eqb (d :: b) []) eqn:E; [apply bits_eqb_eq in E; discriminate|]. reflexivity.
  - destruct Q as [Q|Q]; [discriminate|]. cbn in Q.
    destruct (bits_eqb (d :: b) (z :: q)) eqn:E; [apply bits_eqb_eq in E; congruence|].
    assert (L : lcp (d :: b) (z :: q) = 0%nat).
    { cbn. destruct (Bool.eqb d z) eqn:E2; [apply Bool.eqb_prop in E2; congruence | reflexivity]. }
    rewrite L. reflexivity.
Qed.

(** A node's place read without its conditions. *)
Lemma tags_at_node : forall i b ts l r q,
  tags_at (TNode i b ts l r) (b ++ q) =
  match q with [] => ts | y :: _ => if y then tags_at r q else tags_at l q end.
Proof.
  intros. cbn [tags_at]. destruct (bits_eqb b (b ++ q)) eqn:E.
  - apply bits_eqb_eq in E. destruct q as [|y q]; [reflexivity|].
    exfalso. apply (f_equal (@length bool)) in E. rewrite app_length in E. cbn in E. lia.
  - rewrite lcp_self, Nat.eqb_refl, skipn_app_len. destruct q as [|y q]; [|reflexivity].
    exfalso. apply bits_eqb_neq in E. apply E. now rewrite app_nil_r.
Qed.
Lemma tags_at_off : forall i b ts l r q, (forall q', q <> b ++ q') -> tags_at (TNode i b ts l r) q = [].
Proof.
  intros i b ts l r q H. cbn [tags_at]. destruct (bits_eqb b q) eqn:E.
  - apply bits_eqb_eq in E. exfalso. apply (H []). now rewrite app_nil_r.
  - destruct (Nat.eqb (lcp b q) (length b)) eqn:L; [|reflexivity].
    apply Nat.eqb_eq, lcp_all in L. destruct L as [q' ->]. now destruct (H q').
Qed.
Lemma prefix_dec : forall (b q : list bool), {q' | q = b ++ q'} + {forall q', q <> b ++ q'}.
Proof.
  intros b q. destruct (Nat.eq_dec (lcp b q) (length b)) as [E|E].
  - left. exists (skipn (length b) q). pose proof (lcp_firstn b q) as F. rewrite E, firstn_all in F.
    rewrite F at 1. symmetry. apply firstn_skipn.
  - right. intros q' ->. apply E, lcp_self.
Qed.

Lemma at_ins_app : forall c q a x, at_ins (c ++ q) (c ++ a) x = at_ins q a x.
Proof.
  intros. unfold at_ins. destruct (bits_eqb q a) eqn:E.
  - apply bits_eqb_eq in E. subst. now rewrite (proj2 (bits_eqb_eq _ _) eq_refl).
  - apply bits_eqb_neq in E. assert (c ++ q <> c ++ a) by (intros H; apply app_inv_head in H; auto).
    now rewrite (proj2 (bits_eqb_neq _ _) H).
Qed.
Lemma at_ins_off : forall q a x, q <> a -> at_ins q a x = [].
Proof. intros. unfold at_ins. now rewrite (proj2 (bits_eqb_neq _ _) H). Qed.
Lemma at_ins_on : forall a x, at_ins a a x = [x].
Proof. intros. unfold at_ins. now rewrite (proj2 (bits_eqb_eq _ _) eq_refl). Qed.

(** [b = c ++ b'], [a = c ++ a'] for the common part [c]. *)
Lemma lcp_split : forall b a, exists c b' a', b = c ++ b' /\ a = c ++ a' /\
  lcp b a = length c /\ skipn (lcp b a) b = b' /\ skipn (lcp b a) a = a' /\ firstn (lcp b a) a = c.
Proof.
  intros b a. exists (firstn (lcp b a) a), (skipn (lcp b a) b), (skipn (lcp b a) a).
  pose proof (lcp_le b a). repeat split.
  - rewrite <- (lcp_firstn b a). symmetry. apply firstn_skipn.
  - symmetry. apply firstn_skipn.
  - rewrite firstn_length. lia.
Qed.

Theorem tags_at_ins : forall t n a x q, tgood t ->
  tags_at (ins n t a x) q = tags_at t q ++ at_ins q a x.
Proof.
  induction t as [|i b ts l IHl r IHr]; intros n a x q G.
  { cbn [ins tags_at]. unfold at_ins. destruct (bits_eqb a q) eqn:E.
    - apply bits_eqb_eq in E. subst. now rewrite (proj2 (bits_eqb_eq _ _) eq_refl).
    - apply bits_eqb_neq in E. rewrite (proj2 (bits_eqb_neq q a)) by congruence.
      destruct (Nat.eqb _ _); [|reflexivity]. now destruct (head_set _). }
  destruct G as (Sl & Sr & Gl & Gr).
  destruct (lcp_split b a) as (c & b' & a' & Eb & Ea & Lc & Kb & Ka & Fa).
  cbn [ins]. rewrite Kb, Ka, Fa, Lc.
  destruct (Nat.eqb (length c) (length a)) eqn:E1; [destruct (Nat.eqb (length c) (length b)) eqn:E2|
    destruct (Nat.eqb (length c) (length b)) eqn:E2]; rewrite ?Nat.eqb_eq, ?Nat.eqb_neq in *;
    rewrite Eb, Ea, ?app_length in *.
  - assert (a' = []) by (destruct a'; [reflexivity | cbn in E1; lia]).
    assert (b' = []) by (destruct b'; [reflexivity | cbn in E2; lia]). subst a' b'. rewrite app_nil_r in *.
    destruct (prefix_dec c q) as [[q' ->]|Off].
    + rewrite !tags_at_node. rewrite <- (app_nil_r c) at 2. rewrite at_ins_app.
      destruct q' as [|y q']; [now rewrite at_ins_on|]. rewrite at_ins_off by discriminate. now rewrite app_nil_r.
    + rewrite !tags_at_off by exact Off. rewrite at_ins_off; [reflexivity|]. intros ->. apply (Off []). now rewrite app_nil_r.
  - assert (a' = []) by (destruct a'; [reflexivity | cbn in E1; lia]). subst a'. rewrite app_nil_r in *.
    destruct b' as [|u b']; [cbn in E2; lia|]. cbn [head_set].
    assert (Goal1 : forall q' : list bool, match q' with [] => [x] | y :: _ =>
      if y then tags_at (if u then TNode i (u :: b') ts l r else TLeaf) q'
      else tags_at (if u then TLeaf else TNode i (u :: b') ts l r) q' end =
      tags_at (TNode i (c ++ u :: b') ts l r) (c ++ q') ++ at_ins q' [] x).
    { intros q'. destruct (prefix_dec (u :: b') q') as [[q2 ->]|Off].
      - rewrite app_assoc, tags_at_node. cbn [app]. rewrite at_ins_off by discriminate. rewrite app_nil_r.
        change (u :: b' ++ q2) with ((u :: b') ++ q2).
        destruct u; rewrite tags_at_node; reflexivity.
      - rewrite (tags_at_off i (c ++ u :: b')).
        2:{ intros z H. rewrite <- app_assoc in H. apply app_inv_head in H. now apply (Off z). }
        destruct q' as [|y q']; [now rewrite at_ins_on|]. rewrite at_ins_off by discriminate.
        destruct y, u; cbn [app]; rewrite ?(tags_at_off i (_ :: b')) by exact Off; reflexivity. }
    destruct (prefix_dec c q) as [[q' ->]|Off].
    + replace (at_ins (c ++ q') c x) with (at_ins q' [] x) by (rewrite <- (at_ins_app c q' [] x), app_nil_r; reflexivity). rewrite <- Goal1. destruct u; rewrite tags_at_node; reflexivity.
    + rewrite (tags_at_off i (c ++ u :: b')).
      2:{ intros z H. rewrite <- app_assoc in H. now apply (Off ((u :: b') ++ z)). }
      rewrite at_ins_off by (intros ->; apply (Off []); now rewrite app_nil_r).
      destruct u; rewrite tags_at_off by exact Off; reflexivity.
  - assert (b' = []) by (destruct b'; [reflexivity | cbn in E2; lia]). subst b'. rewrite app_nil_r in *.
    destruct a' as [|v a']; [cbn in E1; lia|]. cbn [head_set].
    destruct (prefix_dec c q) as [[q' ->]|Off].
    + rewrite at_ins_app. destruct v; rewrite !tags_at_node; (destruct q' as [|y q'];
        [rewrite at_ins_off by discriminate; now rewrite app_nil_r|]); destruct y.
      * now apply IHr.
      * rewrite at_ins_off by discriminate. now rewrite app_nil_r.
      * rewrite at_ins_off by discriminate. now rewrite app_nil_r.
      * now apply IHl.
    + rewrite at_ins_off by (intros ->; now apply (Off (v :: a'))).
      destruct v; rewrite !tags_at_off by exact Off; reflexivity.
  - destruct b' as [|u b']; [cbn in E2; lia|]. destruct a' as [|v a']; [cbn in E1; lia|].
    assert (D : u <> v).
    { apply (lcp_skip_head _ _ _ _ _ _ Kb Ka). }
    cbn [head_set].
    destruct (prefix_dec c q) as [[q' ->]|Off].
    + rewrite at_ins_app.
      assert (Old : tags_at (TNode i (c ++ u :: b') ts l r) (c ++ q') = tags_at (TNode i (u :: b') ts l r) q').
      { destruct (prefix_dec (u :: b') q') as [[q2 ->]|Off].
        - rewrite app_assoc, !tags_at_node. reflexivity.
        - rewrite !tags_at_off; [reflexivity | exact Off|].
          intros z H. rewrite <- app_assoc in H. apply app_inv_head in H. now apply (Off z). }
      rewrite Old. clear Old.
      assert (New : tags_at (TNode (S n) (v :: a') [x] TLeaf TLeaf) q' = at_ins q' (v :: a') x).
      { destruct (prefix_dec (v :: a') q') as [[q2 ->]|Off].
        - rewrite tags_at_node. destruct q2 as [|y q2].
          + rewrite app_nil_r, at_ins_on. reflexivity.
          + rewrite at_ins_off. { now destruct y. } rewrite <- (app_nil_r (v :: a')) at 2. intros H. apply app_inv_head in H. discriminate.
        - rewrite tags_at_off by exact Off. rewrite at_ins_off; [reflexivity|]. intros ->. apply (Off []). now rewrite app_nil_r. }
      assert (Q0 : q' = [] -> tags_at (TNode i (u :: b') ts l r) q' = [] /\ at_ins q' (v :: a') x = []).
      { intros ->. split; [reflexivity | apply at_ins_off; discriminate]. }
      assert (QU : forall y q2, q' = y :: q2 -> y <> v -> at_ins q' (v :: a') x = []).
      { intros y q2 -> N. apply at_ins_off. congruence. }
      assert (QV : forall y q2, q' = y :: q2 -> y <> u -> tags_at (TNode i (u :: b') ts l r) q' = []).
      { intros y q2 -> N. apply tags_at_off. intros z H. cbn in H. congruence. }
      destruct u, v; try congruence; rewrite tags_at_node; (destruct q' as [|y q'];
        [destruct (Q0 eq_refl) as [-> ->]; reflexivity|]); destruct y;
        rewrite ?New; try rewrite (QU true q' eq_refl) by discriminate; try rewrite (QU false q' eq_refl) by discriminate; try rewrite (QV true q' eq_refl) by discriminate; try rewrite (QV false q' eq_refl) by discriminate;
        rewrite ?app_nil_r; reflexivity.
    + rewrite (tags_at_off i (c ++ u :: b')).
      2:{ intros z H. rewrite <- app_assoc in H. now apply (Off ((u :: b') ++ z)). }
      rewrite at_ins_off by (intros ->; now apply (Off (v :: a'))).
      destruct u; rewrite tags_at_off by exact Off; reflexivity.
Qed.

(** ** The walk *)

Lemma flat_map_seq_shift : forall {A} (f : nat -> list A) n s k,
  flat_map f (seq (s + k) n) = flat_map (fun j => f (k + j)%nat) (seq s n).
Proof.
  induction n as [|n IH]; intros s k; [reflexivity|]. cbn. rewrite (Nat.add_comm s k) at 1. f_equal.
  rewrite <- IH. reflexivity.
Qed.
Lemma flat_map_nil : forall {A B} (f : A -> list B) l, (forall x, In x l -> f x = []) -> flat_map f l = [].
Proof. induction l as [|x l IH]; intros H; [reflexivity|]. cbn. rewrite H by now left. apply IH. intros y I. apply H. now right. Qed.
Lemma flat_map_ext_in : forall {A B} (f g : A -> list B) l, (forall x, In x l -> f x = g x) -> flat_map f l = flat_map g l.
Proof. induction l as [|x l IH]; intros H; [reflexivity|]. cbn. rewrite H by now left. f_equal. apply IH. intros y I. apply H. now right. Qed.

Theorem walk_prefixes : forall t a, tgood t ->
  walk t a = flat_map (fun k => tags_at t (firstn k a)) (seq 0 (S (length a))).
Proof.
  induction t as [|i b ts l IHl r IHr]; intros a G.
  { cbn [walk tags_at]. symmetry. now apply flat_map_nil. }
  destruct G as (Sl & Sr & Gl & Gr). cbn [walk].
  destruct (prefix_dec b a) as [[a' ->]|Off].
  - rewrite lcp_self, Nat.eqb_refl, skipn_app_len, app_length.
    replace (S (length b + length a'))%nat with (length b + S (length a'))%nat by lia.
    rewrite seq_app, flat_map_app.
    rewrite (flat_map_nil _ (seq 0 (length b))).
    2:{ intros k I. apply in_seq in I. apply tags_at_off. intros z H.
        apply (f_equal (@length bool)) in H. rewrite firstn_length, !app_length in H. lia. }
    cbn [app]. rewrite (flat_map_seq_shift _ _ 0 (length b)).
    assert (E : forall j, tags_at (TNode i b ts l r) (firstn (length b + j) (b ++ a')) =
      match firstn j a' with [] => ts | y :: _ => if y then tags_at r (firstn j a') else tags_at l (firstn j a') end).
    { intros j. rewrite firstn_app_2. apply tags_at_node. }
    rewrite (flat_map_ext_in _ _ _ (fun j _ => E j)). clear E.
    cbn [seq flat_map firstn]. f_equal.
    destruct (Nat.eqb (length b) (length b + length a')) eqn:E0.
    + apply Nat.eqb_eq in E0. destruct a'; [reflexivity | cbn in E0; lia].
    + destruct a' as [|y a']; [rewrite Nat.add_0_r, Nat.eqb_refl in E0; discriminate|].
      cbn [head_set]. clear E0.
      assert (E : forall t d, starts d t -> tgood t ->
        flat_map (fun k => tags_at t (firstn k (d :: a'))) (seq 0 (S (length (d :: a')))) =
        flat_map (fun k => tags_at t (firstn k (d :: a'))) (seq 1 (length (d :: a')))).
      { intros t d S _. cbn [seq flat_map]. rewrite (tags_at_starts t d) by (auto; now left). reflexivity. }
      destruct y.
      * rewrite IHr by assumption. rewrite E by assumption. apply flat_map_ext_in. intros k I. apply in_seq in I.
        destruct k as [|k]; [lia | reflexivity].
      * rewrite IHl by assumption. rewrite E by assumption. apply flat_map_ext_in. intros k I. apply in_seq in I.
        destruct k as [|k]; [lia | reflexivity].
  - destruct (Nat.eqb (lcp b a) (length b)) eqn:L.
    { apply Nat.eqb_eq, lcp_all in L. destruct L as [z ->]. now destruct (Off z). }
    symmetry. apply flat_map_nil. intros k _. apply tags_at_off. intros z H.
    apply (Off (z ++ skipn k a)). rewrite app_assoc, <- H. symmetry. apply firstn_skipn.
Qed.
