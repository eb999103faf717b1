(** The tree of addresses and its reduction. *)
From Coq Require Import List ZArith Lia Bool Permutation String.
From Verif.Model Require Import Base Str Tal TalText Paths SubMap.
From Verif.Spec Require Import SubMapSpec.
From Verif.Proofs Require Import StrProofs PathProofs.
Import ListNotations.
Open Scope Z_scope.

Notation entries := (list (bytes * submap)).

Lemma get_set : forall k k' v m, sub_get k (sub_set k' v m) = if beq k k' then Some v else sub_get k m.
Proof.
  intros k k' v m. induction m as [|[k1 v1] m IH]; cbn [sub_set sub_get].
  - destruct (beq k k'); reflexivity.
  - destruct (beq k' k1) eqn:B; cbn [sub_get].
    + apply beq_eq in B. subst. destruct (beq k k1); reflexivity.
    + rewrite IH. destruct (beq k k1) eqn:B1; [|reflexivity]. apply beq_eq in B1. subst.
      destruct (beq k1 k') eqn:B2; [|reflexivity]. apply beq_eq in B2. subst. rewrite beq_refl in B. discriminate.
Qed.
Lemma get_in : forall k v m, sub_get k m = Some v -> In (k, v) m.
Proof.
  intros k v m. induction m as [|[k1 v1] m IH]; cbn [sub_get]; [discriminate|].
  destruct (beq k k1) eqn:B; [apply beq_eq in B; intros E; injection E as <-; subst; now left|intros E; right; auto].
Qed.
Lemma in_get : forall k v m, NoDup (map fst m) -> In (k, v) m -> sub_get k m = Some v.
Proof.
  intros k v m. induction m as [|[k1 v1] m IH]; cbn [map fst sub_get]; intros N I; [contradiction|]. inversion N as [|? ? N1 N2]; subst.
  destruct I as [E|I]; [injection E as <- <-; rewrite beq_refl; reflexivity|].
  destruct (beq k k1) eqn:B; [|auto]. apply beq_eq in B. subst. elim N1. apply in_map_iff. now exists (k1, v).
Qed.
Lemma set_keys : forall k v m, map fst (sub_set k v m) = map fst m \/ (sub_get k m = None /\ map fst (sub_set k v m) = map fst m ++ [k]).
Proof.
  intros k v m. induction m as [|[k1 v1] m IH]; cbn [sub_set map fst sub_get]; [right; auto|].
  destruct (beq k k1) eqn:B; cbn [map fst]; [left; reflexivity|].
  destruct IH as [->|(G & ->)]; [left; reflexivity|right; auto].
Qed.
Lemma get_none : forall k m, sub_get k m = None <-> ~ In k (map fst m).
Proof.
  intros k m. induction m as [|[k1 v1] m IH]; cbn [sub_get map fst In]; [tauto|].
  destruct (beq k k1) eqn:B; [apply beq_eq in B; subst; split; [discriminate|intros N; elim N; now left]|].
  apply beq_neq in B. rewrite IH. intuition congruence.
Qed.
Lemma set_nodup : forall k v m, NoDup (map fst m) -> NoDup (map fst (sub_set k v m)).
Proof.
  intros k v m N. destruct (set_keys k v m) as [->|(G & ->)]; [exact N|]. apply get_none in G.
  apply NoDup_rev in N. rewrite <- rev_involutive. apply NoDup_rev. rewrite rev_app_distr. cbn [rev app]. constructor; [|exact N].
  now rewrite <- in_rev.
Qed.
Lemma add_nodup : forall l m, NoDup (map fst m) -> NoDup (map fst (add_split l m)).
Proof.
  intros [|s l] m N; cbn [add_split]; [exact N|]. destruct (sub_get s m) as [[sm c]|]; apply set_nodup; exact N.
Qed.

(** The entry at a path. *)
Fixpoint at_path (m : entries) (p : list bytes) : option submap :=
  match p with
  | [] => None
  | s :: p' =>
      match sub_get s m with
      | None => None
      | Some (Sub sm c) => match p' with [] => Some (Sub sm c) | _ => at_path sm p' end
      end
  end.
Lemma at_cons : forall m s p, p <> [] -> at_path m (s :: p) = match sub_get s m with Some (Sub sm _) => at_path sm p | None => None end.
Proof. intros m s [|x p] H; [now elim H|]. cbn [at_path]. destruct (sub_get s m) as [[sm c]|]; reflexivity. Qed.
Lemma at_snoc : forall p m s, p <> [] -> at_path m (p ++ [s]) = match at_path m p with Some (Sub sm _) => sub_get s sm | None => None end.
Proof.
  induction p as [|x p IH]; intros m s H; [now elim H|]. cbn [app]. rewrite at_cons by (destruct p; discriminate).
  destruct p as [|y p].
  - cbn [app at_path]. destruct (sub_get x m) as [[sm c]|]; [|reflexivity]. cbn [at_path]. destruct (sub_get s sm) as [[? ?]|]; reflexivity.
  - rewrite at_cons by discriminate. destruct (sub_get x m) as [[sm c]|]; [|reflexivity]. apply IH. discriminate.
Qed.

(** How adding changes it. *)
Lemma at_nil : forall p, p <> [] -> at_path [] p = None.
Proof. intros [|s p] H; [now elim H|reflexivity]. Qed.
Definition made (l' : list bytes) (o : option submap) : submap :=
  match o with
  | Some (Sub sm c) => Sub (add_split l' sm) c
  | None => Sub (add_split l' []) (match l' with [] => 1 | _ => 0 end)
  end.
Lemma at_add_on : forall p m l', p <> [] -> at_path (add_split (p ++ l') m) p = Some (made l' (at_path m p)).
Proof.
  induction p as [|s p IH]; intros m l' H; [now elim H|]. destruct p as [|y p].
  - cbn [app add_split at_path]. destruct (sub_get s m) as [[sm c]|] eqn:G; rewrite get_set, beq_refl; reflexivity.
  - cbn [app]. rewrite !at_cons by discriminate. cbn [add_split].
    destruct (sub_get s m) as [[sm c]|] eqn:G; rewrite get_set, beq_refl.
    + exact (IH sm l' ltac:(discriminate)).
    + refine (eq_trans (IH [] l' _) _); [discriminate|reflexivity].
Qed.
Lemma at_add_off : forall p m l, p <> [] -> (forall q, l <> p ++ q) -> at_path (add_split l m) p = at_path m p.
Proof.
  induction p as [|s p IH]; intros m l H NP; [now elim H|]. destruct l as [|x l]; [reflexivity|]. cbn [add_split].
  destruct (beq_dec s x) as [->|NE].
  - destruct p as [|y p]; [elim (NP l); reflexivity|]. rewrite !at_cons by discriminate.
    assert (NP' : forall q, l <> (y :: p) ++ q) by (intros q ->; elim (NP q); reflexivity).
    destruct (sub_get x m) as [[sm c]|] eqn:G; rewrite get_set, beq_refl.
    + apply IH; [discriminate|exact NP'].
    + rewrite IH; [reflexivity|discriminate|exact NP'].
  - assert (B : beq s x = false) by now apply beq_neq.
    cbn [at_path]. destruct (sub_get x m) as [[sm c]|] eqn:G; rewrite get_set, B; reflexivity.
Qed.

(** *** The tree of a list of addresses in components *)
Definition build (ls : list (list bytes)) : entries := fold_left (fun m l => add_split l m) ls [].
Lemma build_snoc : forall ls l, build (ls ++ [l]) = add_split l (build ls).
Proof. intros. unfold build. rewrite fold_left_app. reflexivity. Qed.

Definition extends (p l : list bytes) : Prop := exists q, l = p ++ q.
Lemma extends_dec : forall p l : list bytes, {q | l = p ++ q} + {forall q, l <> p ++ q}.
Proof.
  induction p as [|s p IH]; intros l; [left; now exists l|]. destruct l as [|x l]; [right; discriminate|].
  destruct (beq_dec s x) as [->|NE]; [|right; intros q E; injection E; congruence].
  destruct (IH l) as [(q & ->)|N]; [left; now exists q|right; intros q E; injection E as E; now elim (N q)].
Qed.

(** The first one of them through [p]. *)
Definition first_through (ls : list (list bytes)) (p l : list bytes) : Prop :=
  exists a b, ls = a ++ l :: b /\ extends p l /\ forall z, In z a -> ~ extends p z.

Lemma build_at : forall ls p, p <> [] ->
  match at_path (build ls) p with
  | None => forall l, In l ls -> ~ extends p l
  | Some (Sub sm c) => NoDup (map fst sm) /\ exists l, first_through ls p l /\ ((l = p /\ c = 1) \/ (l <> p /\ c = 0))
  end.
Proof.
  intros ls p NE. induction ls as [|l ls IH] using rev_ind.
  - replace (at_path (build []) p) with (@None submap) by (symmetry; apply at_nil; exact NE). intros l [].
  - rewrite build_snoc. destruct (extends_dec p l) as [(q & ->)|N].
    + rewrite at_add_on by exact NE. destruct (at_path (build ls) p) as [[sm c]|]; cbn [made].
      * destruct IH as (ND & l & (a & b & -> & E & F) & C). split; [apply add_nodup; exact ND|]. exists l. split; [|exact C].
        exists a, (b ++ [p ++ q]). rewrite <- app_assoc. auto.
      * split; [apply add_nodup; constructor|]. exists (p ++ q). split; [exists ls, []; split; [reflexivity|]; split; [now exists q|exact IH]|].
        destruct q as [|x q]; [left; rewrite app_nil_r; auto|right]. split; [|reflexivity].
        intros E. apply (f_equal (@length bytes)) in E. rewrite app_length in E. cbn [length] in E. lia.
    + rewrite at_add_off by assumption. destruct (at_path (build ls) p) as [[sm c]|].
      * destruct IH as (ND & k & (a & b & -> & E & F) & C). split; [exact ND|]. exists k. split; [|exact C].
        exists a, (b ++ [l]). rewrite <- app_assoc. auto.
      * intros k I. apply in_app_iff in I as [I|[<-|[]]]; [now apply IH|]. intros (q & E). now elim (N q).
Qed.
Lemma build_nodup : forall ls, NoDup (map fst (build ls)).
Proof. intros ls. induction ls as [|l ls IH] using rev_ind; [constructor|]. rewrite build_snoc. apply add_nodup. exact IH. Qed.
Lemma build_some : forall ls p, p <> [] -> (at_path (build ls) p <> None <-> exists l, In l ls /\ extends p l).
Proof.
  intros ls p NE. pose proof (build_at ls p NE) as B. destruct (at_path (build ls) p) as [[sm c]|].
  - split; [|discriminate]. intros _. destruct B as (_ & l & (a & b & -> & E & _) & _). exists l. split; [apply in_elt|exact E].
  - split; [now intros H; elim H|]. intros (l & I & E). elim (B l I E).
Qed.

(** *** Reduction *)
Inductive result (m : entries) (path : bytes) (depth : nat) : bytes -> Prop :=
| re_here k v : In (k, v) m -> goes_on v depth = false -> result m path depth (path ++ [slash] ++ k)
| re_below k sm c x : In (k, Sub sm c) m -> goes_on (Sub sm c) depth = true ->
    result sm (path ++ [slash] ++ k) (S depth) x -> result m path depth x.

Section Order.
Variable order : nat -> entries -> entries.
Hypothesis order_perm : forall n m, Permutation (order n m) m.

Lemma one_results : forall path depth l q r, reduce_one path depth l = (q, r) ->
  (forall x, In x r <-> exists k v, In (k, v) l /\ goes_on v depth = false /\ x = path ++ [slash] ++ k) /\
  (forall m p d, In (m, p, d) q <-> exists k c, In (k, Sub m c) l /\ goes_on (Sub m c) depth = true /\ p = path ++ [slash] ++ k /\ d = S depth).
Proof.
  intros path depth l. induction l as [|[k v] l IH]; cbn [reduce_one]; intros q r E.
  - injection E as <- <-. split; [intros x|intros m p d]; cbn [In]; (split; [tauto|]); intros (k & v & [] & _).
  - destruct (reduce_one path depth l) as [q1 r1]. destruct (IH q1 r1 eq_refl) as (R & Q). destruct (goes_on v depth) eqn:G; injection E as <- <-.
    + destruct v as [sm c]. split.
      * intros x. rewrite R. split; [intros (k1 & v1 & I & H); exists k1, v1; split; [now right|exact H]|].
        intros (k1 & v1 & [I|I] & H1 & H2); [injection I as <- <-; congruence|eauto].
      * intros m p d. cbn [In]. rewrite Q. split.
        -- intros [I|(k1 & c1 & I & H)]; [injection I as <- <- <-; exists k, c; auto|exists k1, c1; split; [now right|exact H]].
        -- intros (k1 & c1 & [I|I] & H1 & H2 & H3); [injection I as E1 E2 E3; subst; now left|right; eauto 6].
    + split.
      * intros x. cbn [In]. rewrite R. split.
        -- intros [<-|(k1 & v1 & I & H)]; [exists k, v; auto|exists k1, v1; split; [now right|exact H]].
        -- intros (k1 & v1 & [I|I] & H1 & H2); [injection I as <- <-; subst; now left|right; eauto].
      * intros m p d. rewrite Q. split; [intros (k1 & c1 & I & H); exists k1, c1; split; [now right|exact H]|].
        intros (k1 & c1 & [I|I] & H1 & H2 & H3); [injection I as E1 E2; congruence|eauto 6].
Qed.

Lemma result_perm : forall m m' path depth x, Permutation m m' -> result m path depth x -> result m' path depth x.
Proof.
  intros m m' path depth x P H. destruct H as [k v I G|k sm c x I G R].
  - apply re_here with v; [eapply Permutation_in; eauto|exact G].
  - eapply re_below; [eapply Permutation_in; eauto|exact G|exact R].
Qed.

Lemma loop_results : forall fuel queue r, reduce_loop order fuel queue = Some r ->
  forall x, In x r <-> exists m p d, In (m, p, d) queue /\ result m p d x.
Proof.
  induction fuel as [|n IH]; intros [|[[m p] d] queue] r; cbn [reduce_loop]; try discriminate; intros E x.
  1, 2: injection E as <-; split; [intros []|intros (? & ? & ? & [] & _)].
  destruct (reduce_one p d (order n m)) as [q r1] eqn:O. destruct (reduce_loop order n (queue ++ q)) as [r2|] eqn:L; [|discriminate].
  injection E as <-. destruct (one_results _ _ _ _ _ O) as (R & Q). rewrite in_app_iff, R, (IH _ _ L x). split.
  - intros [(k & v & I & G & ->)|(m1 & p1 & d1 & I & H)].
    + exists m, p, d. split; [now left|]. apply re_here with v; [eapply Permutation_in; [apply order_perm|exact I]|exact G].
    + apply in_app_iff in I as [I|I]; [exists m1, p1, d1; split; [now right|exact H]|].
      apply Q in I as (k & c & I & G & -> & ->). exists m, p, d. split; [now left|].
      eapply re_below; [eapply Permutation_in; [apply order_perm|exact I]|exact G|exact H].
  - intros (m1 & p1 & d1 & [I|I] & H).
    + injection I as <- <- <-. destruct H as [k v I G|k sm c x I G H].
      * left. exists k, v. split; [eapply Permutation_in; [apply Permutation_sym, order_perm|exact I]|auto].
      * right. exists sm, (p ++ [slash] ++ k), (S d). split; [|exact H]. apply in_app_iff. right. apply Q. exists k, c.
        split; [eapply Permutation_in; [apply Permutation_sym, order_perm|exact I]|auto].
    + right. exists m1, p1, d1. split; [apply in_app_iff; now left|exact H].
Qed.

(** The bound suffices. *)
Definition items_size (m : entries) : nat := list_sum (map (fun e => sub_size (snd e)) m).
Lemma size_sub : forall sm c, sub_size (Sub sm c) = S (items_size sm).
Proof.
  intros sm c. cbn [sub_size]. f_equal. unfold items_size. induction sm as [|[k w] sm IH]; [reflexivity|]. cbn [map snd list_sum fold_right]. rewrite IH. reflexivity.
Qed.
Definition queue_size (q : list (entries * bytes * nat)) : nat := list_sum (map (fun e => S (items_size (fst (fst e)))) q).
Lemma queue_size_app : forall a b, queue_size (a ++ b) = (queue_size a + queue_size b)%nat.
Proof. intros. unfold queue_size. rewrite map_app, list_sum_app. reflexivity. Qed.
Lemma items_cons : forall k v m, items_size ((k, v) :: m) = (sub_size v + items_size m)%nat.
Proof. reflexivity. Qed.
Lemma queue_cons : forall m p d q, queue_size ((m, p, d) :: q) = (S (items_size m) + queue_size q)%nat.
Proof. reflexivity. Qed.
Lemma one_size : forall path depth l q r, reduce_one path depth l = (q, r) -> (queue_size q <= items_size l)%nat.
Proof.
  intros path depth l. induction l as [|[k v] l IH]; cbn [reduce_one]; intros q r E; [injection E as <- <-; cbn; lia|].
  destruct (reduce_one path depth l) as [q1 r1]. specialize (IH q1 r1 eq_refl). rewrite items_cons.
  destruct (goes_on v depth); injection E as <- <-; [|lia]. destruct v as [sm c]. rewrite queue_cons, size_sub. lia.
Qed.
Lemma perm_size : forall m m', Permutation m m' -> items_size m = items_size m'.
Proof.
  intros m m' P. induction P as [|[k v] l l' P IH|[k1 v1] [k2 v2] l|a b c P1 IH1 P2 IH2]; rewrite ?items_cons; lia.
Qed.
Lemma loop_ends : forall fuel queue, (queue_size queue <= fuel)%nat -> reduce_loop order fuel queue <> None.
Proof.
  induction fuel as [|n IH]; intros [|[[m p] d] queue] L; cbn [reduce_loop]; try discriminate; [rewrite queue_cons in L; lia|].
  destruct (reduce_one p d (order n m)) as [q r1] eqn:O. apply one_size in O. rewrite (perm_size _ _ (order_perm n m)) in O.
  assert (X : reduce_loop order n (queue ++ q) <> None).
  { apply IH. rewrite queue_size_app. rewrite queue_cons in L. lia. }
  destruct (reduce_loop order n (queue ++ q)); [discriminate|now elim X].
Qed.
Lemma reduce_ends : forall m, reduce_map order m <> None.
Proof.
  intros m. unfold reduce_map. apply loop_ends. rewrite size_sub, queue_cons. change (queue_size []) with 0%nat. lia.
Qed.
Lemma reduce_results : forall m r, reduce_map order m = Some r -> forall x, In x r <-> result m (str "rsync:/") 0 x.
Proof.
  intros m r E x. unfold reduce_map in E. rewrite (loop_results _ _ _ E x). split.
  - intros (m1 & p & d & [I|[]] & H). injection I as <- <- <-. exact H.
  - intros H. exists m, (str "rsync:/"), O. split; [now left|exact H].
Qed.
End Order.

(** *** Results in components *)
Definition text (path : bytes) (p : list bytes) : bytes := path ++ concat (map (cons slash) p).
Definition through (m : entries) (depth : nat) (p : list bytes) : Prop :=
  exists v, at_path m p = Some v /\ goes_on v (depth + length p - 1) = false /\
    forall a b, p = a ++ b -> a <> [] -> b <> [] -> exists w, at_path m a = Some w /\ goes_on w (depth + length a - 1) = true.
Fixpoint tidy_d (n : nat) (m : entries) : Prop :=
  match n with O => True | S k => NoDup (map fst m) /\ forall s sm c, In (s, Sub sm c) m -> tidy_d k sm end.

Lemma result_through : forall m path depth x, result m path depth x -> (forall n, tidy_d n m) ->
  exists p, p <> [] /\ x = text path p /\ through m depth p.
Proof.
  intros m path depth x H. induction H as [m path depth k v I G|m path depth k sm c x I G R IH]; intros T.
  - exists [k]. split; [discriminate|]. split; [unfold text; cbn; now rewrite app_nil_r|].
    assert (E : sub_get k m = Some v) by (apply in_get; [exact (proj1 (T 1%nat))|exact I]).
    exists v. split; [cbn [at_path]; rewrite E; destruct v; reflexivity|]. split; [cbn [length]; replace (depth + 1 - 1)%nat with depth by lia; exact G|].
    intros a b E1 NA NB. destruct a as [|x a]; [now elim NA|]. destruct a as [|y a]; [|discriminate]. injection E1 as -> E1. congruence.
  - assert (T' : forall n, tidy_d n sm) by (intros n; destruct (T (S n)) as (_ & X); exact (X _ _ _ I)).
    destruct (IH T') as (p & NE & -> & v & E & G1 & A). exists (k :: p). split; [discriminate|].
    split; [unfold text; cbn [map concat]; rewrite <- !app_assoc; reflexivity|].
    assert (EK : sub_get k m = Some (Sub sm c)) by (apply in_get; [exact (proj1 (T 1%nat))|exact I]).
    exists v. split; [rewrite at_cons by exact NE; rewrite EK; exact E|]. split; [cbn [length]; replace (depth + S (length p) - 1)%nat with (S depth + length p - 1)%nat by lia; exact G1|].
    intros a b E1 NA NB. destruct a as [|x a]; [now elim NA|]. injection E1 as <- E1. destruct a as [|y a].
    + exists (Sub sm c). split; [cbn [at_path]; rewrite EK; reflexivity|]. cbn [length]. replace (depth + 1 - 1)%nat with depth by lia. exact G.
    + destruct (A (y :: a) b E1) as (w & EW & GW); [discriminate|exact NB|]. exists w. split; [rewrite at_cons by discriminate; rewrite EK; exact EW|].
      cbn [length] in *. replace (depth + S (S (length a)) - 1)%nat with (S depth + S (length a) - 1)%nat by lia. exact GW.
Qed.
Lemma through_result : forall p m path depth, p <> [] -> through m depth p -> result m path depth (text path p).
Proof.
  induction p as [|k p IH]; intros m path depth NE (v & E & G & A); [now elim NE|]. destruct p as [|y p].
  - cbn [at_path] in E. destruct (sub_get k m) as [[sm c]|] eqn:EK; [|discriminate]. injection E as <-.
    unfold text. cbn [map concat]. rewrite app_nil_r. apply (re_here m path depth k (Sub sm c)); [apply get_in; exact EK|].
    cbn [length] in G. replace (depth + 1 - 1)%nat with depth in G by lia. exact G.
  - rewrite at_cons in E by discriminate. destruct (sub_get k m) as [[sm c]|] eqn:EK; [|discriminate].
    destruct (A [k] (y :: p) eq_refl) as (w & EW & GW); [discriminate..|]. cbn [at_path] in EW. rewrite EK in EW. injection EW as <-.
    cbn [length] in GW. replace (depth + 1 - 1)%nat with depth in GW by lia.
    unfold text. cbn [map concat]. rewrite app_assoc. change (path ++ slash :: k) with (path ++ [slash] ++ k).
    eapply re_below; [apply get_in; exact EK|exact GW|]. apply IH; [discriminate|]. exists v. split; [exact E|].
    split; [cbn [length] in *; replace (S depth + S (length p) - 1)%nat with (depth + S (S (length p)) - 1)%nat by lia; exact G|].
    intros a b E1 NA NB. destruct (A (k :: a) b) as (w & EW & GW'); [cbn [app]; now rewrite E1|discriminate|exact NB|].
    rewrite at_cons in EW by exact NA. rewrite EK in EW. exists w. split; [exact EW|]. cbn [length] in GW'.
    replace (S depth + length a - 1)%nat with (depth + S (length a) - 1)%nat by lia. exact GW'.
Qed.
Lemma build_tidy : forall ls n, tidy_d n (build ls).
Proof.
  intros ls n. assert (H : forall n m, NoDup (map fst m) -> (forall p sm c, p <> [] -> at_path m p = Some (Sub sm c) -> NoDup (map fst sm)) -> tidy_d n m).
  { clear. induction n as [|n IH]; intros m N H; [exact I|]. split; [exact N|]. intros s sm c I.
    assert (E : sub_get s m = Some (Sub sm c)) by now apply in_get. apply IH.
    - apply (H [s] sm c); [discriminate|]. cbn [at_path]. rewrite E. reflexivity.
    - intros p sm' c' NE E'. apply (H (s :: p) sm' c'); [discriminate|]. rewrite at_cons by exact NE. rewrite E. exact E'. }
  apply H; [apply build_nodup|]. intros p sm c NE E. pose proof (build_at ls p NE) as B. rewrite E in B. exact (proj1 B).
Qed.
