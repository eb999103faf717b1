(** Views of the validator heap and how the primitive updates change them. *)
From Coq Require Import Lia.
From Verif.Model Require Import Base Str Tal Validator.
From Verif.Spec Require Import Trust.
From Verif.Proofs Require Import StrProofs.

Definition hobj (h : list resource) (a : addr) : option obj := option_map r_obj (nth_error h a).
Definition hpar (h : list resource) (a : addr) : option addr :=
  match nth_error h a with Some r => r_parent r | None => None end.
Definition hch (h : list resource) (a : addr) : list addr :=
  match nth_error h a with Some r => r_childs r | None => [] end.

(** Same objects, parents and children: only type, file and flags differ. *)
Definition hsim (h1 h2 : list resource) : Prop :=
  length h1 = length h2 /\ forall a, hobj h1 a = hobj h2 a /\ hpar h1 a = hpar h2 a /\ hch h1 a = hch h2 a.

Lemma hobj_cert_at : forall v a c, cert_at v a c <-> hobj (v_heap v) a = Some (OCert c).
Proof.
  intros. unfold cert_at, hobj. destruct (nth_error (v_heap v) a) as [r|]; cbn; split.
  - intros (r' & E & H). inversion E; subst. now rewrite H.
  - intros H. inversion H. exists r. auto.
  - intros (r' & E & H). discriminate.
  - discriminate.
Qed.

Lemma nth_heap_upd : forall h a f x,
  nth_error (heap_upd h a f) x =
  if Nat.eqb x a then option_map f (nth_error h x) else nth_error h x.
Proof.
  induction h as [|r h IH]; intros a f x; cbn [heap_upd].
  - destruct (Nat.eqb x a); destruct x; reflexivity.
  - destruct a; destruct x; cbn; auto.
Qed.

Lemma length_heap_upd : forall h a f, length (heap_upd h a f) = length h.
Proof. induction h; intros x f; destruct x; cbn; auto. Qed.

Lemma hsim_refl : forall h, hsim h h.
Proof. split; auto. Qed.
Lemma hsim_trans : forall a b c, hsim a b -> hsim b c -> hsim a c.
Proof.
  intros a b c [L1 H1] [L2 H2]. split; [congruence|]. intros x.
  destruct (H1 x) as (? & ? & ?), (H2 x) as (? & ? & ?). repeat split; congruence.
Qed.

(** A function that keeps object, parent and children. *)
Definition meta (f : resource -> resource) : Prop :=
  forall r, r_obj (f r) = r_obj r /\ r_parent (f r) = r_parent r /\ r_childs (f r) = r_childs r.

Lemma hsim_upd_meta : forall h a f, meta f -> hsim (heap_upd h a f) h.
Proof.
  intros h a f M. split; [apply length_heap_upd|]. intros x.
  unfold hobj, hpar, hch. rewrite nth_heap_upd. destruct (Nat.eqb x a); auto.
  destruct (nth_error h x) as [r|]; cbn; auto. destruct (M r) as (-> & -> & ->). auto.
Qed.

Lemma hobj_alloc : forall h r a,
  hobj (h ++ [r]) a = if Nat.eqb a (length h) then Some (r_obj r) else hobj h a.
Proof.
  intros. unfold hobj. destruct (Nat.eqb a (length h)) eqn:E.
  - apply Nat.eqb_eq in E. subst. rewrite nth_error_app2 by lia. now rewrite Nat.sub_diag.
  - apply Nat.eqb_neq in E. destruct (Nat.lt_ge_cases a (length h)).
    + now rewrite nth_error_app1 by lia.
    + rewrite nth_error_app2 by lia. destruct (a - length h)%nat as [|n] eqn:D; [lia|].
      cbn. rewrite (proj2 (nth_error_None h a)) by lia. now destruct n.
Qed.
Lemma hpar_alloc : forall h r a,
  hpar (h ++ [r]) a = if Nat.eqb a (length h) then r_parent r else hpar h a.
Proof.
  intros. unfold hpar. destruct (Nat.eqb a (length h)) eqn:E.
  - apply Nat.eqb_eq in E. subst. rewrite nth_error_app2 by lia. now rewrite Nat.sub_diag.
  - apply Nat.eqb_neq in E. destruct (Nat.lt_ge_cases a (length h)).
    + now rewrite nth_error_app1 by lia.
    + rewrite nth_error_app2 by lia. destruct (a - length h)%nat as [|n] eqn:D; [lia|].
      cbn. rewrite (proj2 (nth_error_None h a)) by lia. now destruct n.
Qed.
Lemma hch_alloc : forall h r a,
  hch (h ++ [r]) a = if Nat.eqb a (length h) then r_childs r else hch h a.
Proof.
  intros. unfold hch. destruct (Nat.eqb a (length h)) eqn:E.
  - apply Nat.eqb_eq in E. subst. rewrite nth_error_app2 by lia. now rewrite Nat.sub_diag.
  - apply Nat.eqb_neq in E. destruct (Nat.lt_ge_cases a (length h)).
    + now rewrite nth_error_app1 by lia.
    + rewrite nth_error_app2 by lia. destruct (a - length h)%nat as [|n] eqn:D; [lia|].
      cbn. rewrite (proj2 (nth_error_None h a)) by lia. now destruct n.
Qed.

Lemma hobj_child : forall h p b a, hobj (heap_upd h p (with_child b)) a = hobj h a.
Proof.
  intros. unfold hobj. rewrite nth_heap_upd. destruct (Nat.eqb a p); auto.
  now destruct (nth_error h a).
Qed.
Lemma hpar_child : forall h p b a, hpar (heap_upd h p (with_child b)) a = hpar h a.
Proof.
  intros. unfold hpar. rewrite nth_heap_upd. destruct (Nat.eqb a p); auto.
  now destruct (nth_error h a).
Qed.
Lemma hch_child : forall h p b a, (p < length h)%nat ->
  hch (heap_upd h p (with_child b)) a = if Nat.eqb a p then hch h p ++ [b] else hch h a.
Proof.
  intros h p b a L. unfold hch. rewrite nth_heap_upd. destruct (Nat.eqb a p) eqn:E; auto.
  apply Nat.eqb_eq in E. subst. destruct (nth_error h p) as [r|] eqn:N; [reflexivity|].
  apply nth_error_None in N. lia.
Qed.

Lemma hobj_lt : forall h a o, hobj h a = Some o -> (a < length h)%nat.
Proof.
  intros h a o H. unfold hobj in H. apply nth_error_Some. intros E. rewrite E in H. discriminate.
Qed.
Lemma hobj_some : forall h a, (a < length h)%nat -> exists o, hobj h a = Some o.
Proof.
  intros h a H. unfold hobj. destruct (nth_error h a) eqn:E; [eexists; reflexivity|].
  apply nth_error_None in E. lia.
Qed.
Lemma hch_lt : forall h a b, In b (hch h a) -> (a < length h)%nat.
Proof.
  intros h a b H. unfold hch in H. apply nth_error_Some. intros E. rewrite E in H. destruct H.
Qed.
Lemma hpar_lt : forall h a b, hpar h a = Some b -> (a < length h)%nat.
Proof.
  intros h a b H. unfold hpar in H. apply nth_error_Some. intros E. rewrite E in H. discriminate.
Qed.

Lemma deref_hobj : forall h a r, deref h a = VRet r ->
  hobj h a = Some (r_obj r) /\ hpar h a = r_parent r /\ hch h a = r_childs r.
Proof.
  intros h a r H. unfold deref in H. unfold hobj, hpar, hch.
  destruct (nth_error h a); inversion H; subst. auto.
Qed.
Lemma deref_lt : forall h a, (a < length h)%nat -> exists r, deref h a = VRet r.
Proof.
  intros h a L. unfold deref. destruct (nth_error h a) eqn:E; eauto.
  apply nth_error_None in E. lia.
Qed.
Lemma deref_of_hobj : forall h a o, hobj h a = Some o -> exists r, deref h a = VRet r /\ r_obj r = o.
Proof.
  intros h a o H. unfold hobj in H. unfold deref. destruct (nth_error h a) as [r|]; inversion H; eauto.
Qed.
Lemma deref_not_fuel : forall h a, deref h a <> VFuel.
Proof. intros. unfold deref. destruct (nth_error h a); discriminate. Qed.
