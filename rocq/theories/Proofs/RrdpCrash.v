(** An interrupted RRDP update can be repeated. *)
From Coq Require Import Lia.
From Verif.Model Require Import Base Str Base64 Paths Cache Rrdp.
From Verif.Spec Require Import RrdpSpec.
From Verif.Proofs Require Import StrProofs RrdpProofs.

Lemma leq_eq : forall a b, leq a b = true <-> a = b.
Proof.
  induction a as [|x a IH]; destruct b; cbn [leq]; try (split; congruence).
  rewrite andb_true_iff, beq_eq, IH. split; [intros [-> ->]; reflexivity|intros H; injection H; auto].
Qed.
Lemma leq_refl : forall a, leq a a = true.
Proof. intros. apply leq_eq. reflexivity. Qed.
Lemma loc_dec : forall a b : loc, {a = b} + {a <> b}.
Proof. intros. destruct (leq a b) eqn:E; [left; apply leq_eq; exact E|right; intros H; apply leq_eq in H; congruence]. Qed.
Lemma fset_eq : forall s l n, fset s l n l = Some n.
Proof. intros. unfold fset. rewrite leq_refl. reflexivity. Qed.
Lemma fset_neq : forall s l n l', l' <> l -> fset s l n l' = s l'.
Proof. intros. unfold fset. destruct (leq l' l) eqn:E; [apply leq_eq in E; contradiction|reflexivity]. Qed.

(** The operations of an update, in order; [None] is a failure that is not due
    to the file system; the mark says that an error is ignored. *)
Definition item := option (bool * op).

Section Plan.
Variable ops : bytes -> bytes -> list op.
Variable snap : bytes -> option doc.
Variable delta : Z -> bytes -> option doc.

Fixpoint plan_elems (ign : bool) (l : list elem) : list item :=
  match l with
  | [] => []
  | (u, t) :: r =>
      match decode_rrdp_base64 t with
      | None => [None]
      | Some d => map (fun o => Some (ign, o)) (ops u d) ++ plan_elems ign r
      end
  end.

Definition plan_doc (ign : bool) (d : doc) : list item := plan_elems false (fst d) ++ plan_elems ign (snd d).

Fixpoint plan_deltas (fuel : nat) (n : notif) (last serial tmp : Z) : list item * outcome :=
  match fuel with
  | O => ([], OutOfFuel)
  | S k =>
      if (serial <=? n_serial n) && (0 <? wrap64 (n_serial n - last)) then
        match delta_at (n_deltas n) serial with
        | None => ([], Failed)
        | Some u =>
            match delta serial u with
            | None => ([], Failed)
            | Some d => let (p, o) := plan_deltas k n last (wrap64 (serial + 1)) serial in (plan_doc true d ++ p, o)
            end
        end
      else ([], Done (n_session n) tmp)
  end.

Definition plan_snapshot (n : notif) : list item * outcome :=
  match snap (n_snapshot n) with
  | None => ([], Failed)
  | Some d => (plan_doc false d, Done (n_session n) (n_serial n))
  end.

Definition plan (root : option notif) (ls : bytes) (last : Z) : list item * outcome :=
  match root with
  | None => ([], Failed)
  | Some n =>
      let fuel := S (S (length (n_deltas n))) in
      match missing fuel (n_deltas n) last (n_serial n) with
      | None => ([], OutOfFuel)
      | Some m =>
          if (last =? 0) || negb (beq ls (n_session n)) || m then plan_snapshot n
          else plan_deltas fuel n last (wrap64 (last + 1)) last
      end
  end.

Definition finish {St} (x : St * verdict) (o : outcome) : St * outcome :=
  match snd x with VOk => (fst x, o) | VErr => (fst x, Failed) | VFatal => (fst x, Exited) end.

Section Texec.
Variable St : Type.
Variable stp : op -> St -> St * verdict.

Fixpoint texec (l : list item) (s : St) : St * verdict :=
  match l with
  | [] => (s, VOk)
  | None :: _ => (s, VErr)
  | Some (i, o) :: r =>
      match stp o s with
      | (s', VOk) => texec r s'
      | (s', VErr) => if i then texec r s' else (s', VErr)
      | (s', VFatal) => (s', VFatal)
      end
  end.

Lemma texec_app : forall a b s, texec (a ++ b) s =
  match texec a s with (s', VOk) => texec b s' | x => x end.
Proof.
  induction a as [|[[i o]|] a IH]; intros b s; cbn [texec app]; [reflexivity| |reflexivity].
  destruct (stp o s) as [s' [| |]]; auto. destruct i; auto.
Qed.

Hypothesis dir_no_err : forall l s, snd (stp (ODir l) s) <> VErr.
Hypothesis tame : forall u d, exists ps tl, ops u d = map ODir ps ++ tl /\ (length tl <= 1)%nat.

Lemma texec_ops : forall i u d s,
  texec (map (fun o => Some (i, o)) (ops u d)) s =
  match exec_with St stp (ops u d) s with
  | (s', VErr) => if i then (s', VOk) else (s', VErr)
  | x => x
  end.
Proof.
  intros i u d. destruct (tame u d) as (ps & tl & -> & Hl).
  induction ps as [|p ps IH]; intros s; cbn [map app texec exec_with].
  - destruct tl as [|o [|? ?]]; cbn [length] in Hl; [reflexivity| |lia]. cbn [map texec exec_with].
    destruct (stp o s) as [s' [| |]]; try reflexivity.
  - pose proof (dir_no_err p s) as N. destruct (stp (ODir p) s) as [s' [| |]]; cbn [snd] in N; [apply IH|congruence|reflexivity].
Qed.

Definition cb_of (e : event) (s : St) : St * verdict := exec_with St stp (ops (e_path e) (e_data e)) s.

Lemma deliver_plan : forall mk ign l s, (forall u d, e_path (mk u d) = u /\ e_data (mk u d) = d) ->
  deliver St cb_of mk ign l s = texec (plan_elems ign l) s.
Proof.
  intros mk ign l s Hm. revert s. induction l as [|[u t] r IH]; intros s; cbn [deliver plan_elems texec]; [reflexivity|].
  destruct (decode_rrdp_base64 t) as [d|]; [|reflexivity].
  unfold cb_of at 1. destruct (Hm u d) as [-> ->]. rewrite texec_app, texec_ops.
  destruct (exec_with St stp (ops u d) s) as [s' [| |]]; auto. destruct ign; auto.
Qed.

Lemma deliver_doc_plan : forall mk ign d s, (forall w u x, e_path (mk w u x) = u /\ e_data (mk w u x) = x) ->
  deliver_doc St cb_of mk ign d s = texec (plan_doc ign d) s.
Proof.
  intros mk ign d s Hm. unfold deliver_doc, plan_doc. rewrite texec_app, deliver_plan by apply Hm.
  destruct (texec (plan_elems false (fst d)) s) as [s' [| |]]; auto. apply deliver_plan, Hm.
Qed.

Lemma deltas_plan : forall fuel n last serial tmp s,
  deltas_loop St cb_of delta fuel n last serial tmp s =
  finish (texec (fst (plan_deltas fuel n last serial tmp)) s) (snd (plan_deltas fuel n last serial tmp)).
Proof.
  induction fuel as [|f IH]; intros; cbn [deltas_loop plan_deltas]; [reflexivity|].
  destruct ((serial <=? n_serial n) && (0 <? wrap64 (n_serial n - last))); [|reflexivity].
  destruct (delta_at (n_deltas n) serial) as [u|]; [|reflexivity].
  destruct (delta serial u) as [d|]; [|reflexivity].
  rewrite deliver_doc_plan by (intros; cbn; auto).
  specialize (IH n last (wrap64 (serial + 1)) serial).
  destruct (plan_deltas f n last (wrap64 (serial + 1)) serial) as [p o]. cbn [fst snd] in *.
  rewrite texec_app. destruct (texec (plan_doc true d) s) as [s' [| |]]; [apply IH|reflexivity|reflexivity].
Qed.

Lemma fetch_plan : forall root ls last s,
  fetch_rrdp St cb_of snap delta root ls last s =
  finish (texec (fst (plan root ls last)) s) (snd (plan root ls last)).
Proof.
  intros [n|] ls last s; [|reflexivity]. cbn [fetch_rrdp plan].
  destruct (missing (S (S (length (n_deltas n)))) (n_deltas n) last (n_serial n)) as [m|]; [|reflexivity].
  destruct ((last =? 0) || negb (beq ls (n_session n)) || m).
  - unfold snapshot_run, plan_snapshot. destruct (snap (n_snapshot n)) as [d|]; [|reflexivity].
    rewrite deliver_doc_plan by (intros; cbn; auto).
    cbn [fst snd]. destruct (texec (plan_doc false d) s) as [s' [| |]]; reflexivity.
  - apply deltas_plan.
Qed.
End Texec.
End Plan.

(** The file system *)

Notation run := (texec fs step).

Definition kind (n : node) : bool := match n with Dir => true | File _ => false end.

Definition place (o : op) : list loc := match o with ODir l | OFile l _ => [l] | _ => [] end.

(** The places an execution sets. *)
Fixpoint touches (l : list item) (s : fs) : list loc :=
  match l with
  | Some (i, o) :: r =>
      match step o s with
      | (s', VOk) => place o ++ touches r s'
      | (s', VErr) => if i then touches r s' else []
      | (_, VFatal) => []
      end
  | _ => []
  end.

Lemma step_kind : forall o s l n, s l = Some n ->
  exists n', fst (step o s) l = Some n' /\ kind n' = kind n.
Proof.
  intros o s l n H. destruct o as [p|p d| |]; cbn [step]; try (exists n; auto; fail).
  - destruct (s p) as [[|x]|] eqn:E; cbn [fst].
    + destruct (loc_dec l p) as [->|N]; [|rewrite fset_neq by exact N; eauto].
      rewrite fset_eq. exists Dir. split; [reflexivity|]. rewrite H in E. injection E as ->. reflexivity.
    + eauto.
    + destruct (loc_dec l p) as [->|N]; [congruence|rewrite fset_neq by exact N; eauto].
  - destruct (s p) as [[|x]|] eqn:E; cbn [fst].
    + eauto.
    + destruct (loc_dec l p) as [->|N]; [|rewrite fset_neq by exact N; eauto].
      rewrite fset_eq. exists (File d). split; [reflexivity|]. rewrite H in E. injection E as ->. reflexivity.
    + destruct (loc_dec l p) as [->|N]; [congruence|rewrite fset_neq by exact N; eauto].
Qed.

(** A directory stays a directory and a file a file. *)
Lemma run_kind : forall p s l n, s l = Some n -> exists n', fst (run p s) l = Some n' /\ kind n' = kind n.
Proof.
  induction p as [|[[i o]|] p IH]; intros s l n H; cbn [texec]; [eauto| |eauto].
  destruct (step_kind o s l n H) as (n1 & H1 & K1). destruct (step o s) as [s' v]. cbn [fst] in H1.
  destruct v; [| destruct i |]; [|..|cbn [fst]; eauto].
  - destruct (IH s' l n1 H1) as (n2 & H2 & K2). exists n2. split; [exact H2|congruence].
  - destruct (IH s' l n1 H1) as (n2 & H2 & K2). exists n2. split; [exact H2|congruence].
  - cbn [fst]. eauto.
Qed.

(** [between p s s']: [s'] is [s] with some of the places that running [p] from
    [s] sets already there, of the right kind. *)
Definition between (p : list item) (s s' : fs) : Prop :=
  forall l, s' l = s l \/
    (In l (touches p s) /\ exists n n', s' l = Some n' /\ fst (run p s) l = Some n /\ kind n' = kind n).

Lemma between_refl : forall p s, between p s s.
Proof. intros p s l. left. reflexivity. Qed.

Lemma between_none : forall p s s', touches p s = [] -> between p s s' -> forall l, s' l = s l.
Proof. intros p s s' E B l. destruct (B l) as [|[I _]]; [assumption|]. rewrite E in I. destruct I. Qed.

(** One step *)
Lemma between_dir : forall i l p s s', (forall x, s l <> Some (File x)) ->
  between (Some (i, ODir l) :: p) s s' ->
  (forall x, s' l <> Some (File x)) /\ between p (fset s l Dir) (fset s' l Dir) /\
  step (ODir l) s = (fset s l Dir, VOk) /\ step (ODir l) s' = (fset s' l Dir, VOk).
Proof.
  intros i l p s s' Hs B.
  assert (St1 : step (ODir l) s = (fset s l Dir, VOk)).
  { cbn [step]. destruct (s l) as [[|x]|] eqn:E; [reflexivity|exfalso; eapply Hs; eauto|reflexivity]. }
  assert (T : touches (Some (i, ODir l) :: p) s = l :: touches p (fset s l Dir)) by (cbn [touches]; rewrite St1; reflexivity).
  assert (R : fst (run (Some (i, ODir l) :: p) s) = fst (run p (fset s l Dir))) by (cbn [texec]; rewrite St1; reflexivity).
  unfold between in B. rewrite T, R in B.
  assert (Hs' : forall x, s' l <> Some (File x)).
  { intros x Hx. destruct (B l) as [E|(_ & n & n' & E1 & E2 & K)].
    - rewrite E in Hx. exact (Hs x Hx).
    - destruct (run_kind p (fset s l Dir) l Dir (fset_eq _ _ _)) as (m & M1 & M2).
      rewrite Hx in E1. injection E1 as <-. rewrite M1 in E2. injection E2 as ->. rewrite M2 in K. discriminate. }
  split; [exact Hs'|]. split.
  - intros l'. destruct (loc_dec l' l) as [->|N]; [left; rewrite !fset_eq; reflexivity|].
    rewrite !fset_neq by exact N. destruct (B l') as [E|([E|I] & X)]; [left; exact E|congruence|].
    right. split; [exact I|]. exact X.
  - split; [exact St1|]. cbn [step]. destruct (s' l) as [[|x]|] eqn:E; [reflexivity|exfalso; eapply Hs'; eauto|reflexivity].
Qed.

Lemma between_file : forall i l d p s s', s l <> Some Dir ->
  between (Some (i, OFile l d) :: p) s s' ->
  s' l <> Some Dir /\ between p (fset s l (File d)) (fset s' l (File d)) /\
  step (OFile l d) s = (fset s l (File d), VOk) /\ step (OFile l d) s' = (fset s' l (File d), VOk).
Proof.
  intros i l d p s s' Hs B.
  assert (St1 : step (OFile l d) s = (fset s l (File d), VOk)).
  { cbn [step]. destruct (s l) as [[|x]|] eqn:E; [congruence|reflexivity|reflexivity]. }
  assert (T : touches (Some (i, OFile l d) :: p) s = l :: touches p (fset s l (File d))) by (cbn [touches]; rewrite St1; reflexivity).
  assert (R : fst (run (Some (i, OFile l d) :: p) s) = fst (run p (fset s l (File d)))) by (cbn [texec]; rewrite St1; reflexivity).
  unfold between in B. rewrite T, R in B.
  assert (Hs' : s' l <> Some Dir).
  { intros Hx. destruct (B l) as [E|(_ & n & n' & E1 & E2 & K)]; [congruence|].
    destruct (run_kind p (fset s l (File d)) l (File d) (fset_eq _ _ _)) as (m & M1 & M2).
    rewrite Hx in E1. injection E1 as <-. rewrite M1 in E2. injection E2 as ->. rewrite M2 in K. discriminate. }
  split; [exact Hs'|]. split.
  - intros l'. destruct (loc_dec l' l) as [->|N]; [left; rewrite !fset_eq; reflexivity|].
    rewrite !fset_neq by exact N. destruct (B l') as [E|([E|I] & X)]; [left; exact E|congruence|].
    right. split; [exact I|]. exact X.
  - split; [exact St1|]. cbn [step]. destruct (s' l) as [[|x]|] eqn:E; [congruence|reflexivity|reflexivity].
Qed.

Lemma between_err : forall o p s s', step o s = (s, VErr) ->
  between (Some (true, o) :: p) s s' -> between p s s'.
Proof. intros o p s s' E B. unfold between in *. cbn [touches texec] in B. rewrite E in B. exact B. Qed.

(** Running again from such a state gives the same. *)
Theorem run_between : forall p s s', between p s s' ->
  snd (run p s') = snd (run p s) /\ forall l, fst (run p s') l = fst (run p s) l.
Proof.
  induction p as [|[[i o]|] p IH]; intros s s' B.
  - cbn [texec snd fst]. split; [reflexivity|]. apply between_none with (p := []); auto.
  - destruct o as [l|l d| |].
    + destruct (s l) as [[|x]|] eqn:E.
      2: { assert (S0 : step (ODir l) s = (s, VFatal)) by (cbn [step]; rewrite E; reflexivity).
           assert (P : forall l, s' l = s l).
           { apply between_none with (p := Some (i, ODir l) :: p); [|exact B]. cbn [touches]. rewrite S0. reflexivity. }
           assert (S1 : step (ODir l) s' = (s', VFatal)) by (cbn [step]; rewrite P, E; reflexivity).
           cbn [texec]. rewrite S0, S1. cbn [fst snd]. auto. }
      all: destruct (between_dir i l p s s' ltac:(congruence) B) as (_ & B' & S0 & S1);
           cbn [texec]; rewrite S0, S1; apply IH; exact B'.
    + destruct (s l) as [[|x]|] eqn:E.
      1: { assert (S0 : step (OFile l d) s = (s, VErr)) by (cbn [step]; rewrite E; reflexivity).
           destruct i.
           - assert (B' := between_err _ _ _ _ S0 B).
             assert (E' : s' l = Some Dir).
             { destruct (B' l) as [E'|(_ & n & n' & E1 & E2 & K)]; [congruence|].
               destruct (run_kind p s l Dir E) as (m & M1 & M2). pose proof (eq_trans (eq_sym M1) E2) as G3. injection G3 as G3. subst n.
               rewrite M2 in K. destruct n'; [exact E1|discriminate]. }
             assert (S1 : step (OFile l d) s' = (s', VErr)) by (cbn [step]; rewrite E'; reflexivity).
             cbn [texec]. rewrite S0, S1. apply IH. exact B'.
           - assert (P : forall l, s' l = s l).
             { apply between_none with (p := Some (false, OFile l d) :: p); [|exact B]. cbn [touches]. rewrite S0. reflexivity. }
             assert (S1 : step (OFile l d) s' = (s', VErr)) by (cbn [step]; rewrite P, E; reflexivity).
             cbn [texec]. rewrite S0, S1. cbn [fst snd]. auto. }
      all: destruct (between_file i l d p s s' ltac:(congruence) B) as (_ & B' & S0 & S1);
           cbn [texec]; rewrite S0, S1; apply IH; exact B'.
    + destruct i; cbn [texec step].
      * apply IH. exact (between_err OErr p s s' eq_refl B).
      * cbn [fst snd]. split; [reflexivity|]. apply between_none with (p := Some (false, OErr) :: p); auto.
    + cbn [texec step fst snd]. split; [reflexivity|]. apply between_none with (p := Some (i, OFatal) :: p); auto.
  - cbn [texec fst snd]. split; [reflexivity|]. apply between_none with (p := None :: p); auto.
Qed.

(** An interrupted run keeps to that. *)
Notation crun g := (texec (fs * nat) (step_crash g)).

Lemma between_lift_dir : forall i l p s t, (forall x, s l <> Some (File x)) ->
  between p (fset s l Dir) t -> between (Some (i, ODir l) :: p) s t.
Proof.
  intros i l p s t Hs B.
  assert (S0 : step (ODir l) s = (fset s l Dir, VOk)).
  { cbn [step]. destruct (s l) as [[|x]|] eqn:E; [reflexivity|exfalso; eapply Hs; eauto|reflexivity]. }
  intros l'. cbn [touches texec]. rewrite S0. cbn [place app].
  destruct (B l') as [E|(I & X)].
  - destruct (loc_dec l' l) as [->|N]; [|left; rewrite E; apply fset_neq; exact N].
    rewrite fset_eq in E. right. split; [left; reflexivity|].
    destruct (run_kind p (fset s l Dir) l Dir (fset_eq _ _ _)) as (m & M1 & M2).
    exists m, Dir. auto.
  - right. split; [right; exact I|exact X].
Qed.

Lemma between_lift_file : forall i l d p s t, s l <> Some Dir ->
  between p (fset s l (File d)) t -> between (Some (i, OFile l d) :: p) s t.
Proof.
  intros i l d p s t Hs B.
  assert (S0 : step (OFile l d) s = (fset s l (File d), VOk)).
  { cbn [step]. destruct (s l) as [[|x]|] eqn:E; [congruence|reflexivity|reflexivity]. }
  intros l'. cbn [touches texec]. rewrite S0. cbn [place app].
  destruct (B l') as [E|(I & X)].
  - destruct (loc_dec l' l) as [->|N]; [|left; rewrite E; apply fset_neq; exact N].
    rewrite fset_eq in E. right. split; [left; reflexivity|].
    destruct (run_kind p (fset s l (File d)) l (File d) (fset_eq _ _ _)) as (m & M1 & M2).
    exists m, (File d). auto.
  - right. split; [right; exact I|exact X].
Qed.

Lemma between_lift_err : forall o p s t, step o s = (s, VErr) -> between p s t -> between (Some (true, o) :: p) s t.
Proof. intros o p s t E B. unfold between. cbn [touches texec]. rewrite E. exact B. Qed.

Lemma crash_between : forall g p q s s' k, between (p ++ q) s s' ->
  between (p ++ q) s (fst (fst (crun g p (s', k)))).
Proof.
  intros g p q. induction p as [|[[i o]|] p IH]; intros s s' k B; cbn [texec fst]; [exact B| |exact B].
  cbn [app] in *. destruct k as [|k].
  - unfold step_crash; cbn [snd fst]. unfold torn. destruct o as [l|l d| |]; try exact B.
    destruct g as [g|]; [|exact B]. destruct (s' l) as [[|x]|] eqn:E; [exact B| |];
    (assert (Hs : s l <> Some Dir); [
      intros Hs; destruct (B l) as [G|(I & n & n' & G1 & G2 & K)]; [congruence|];
      destruct (run_kind (Some (i, OFile l d) :: p ++ q) s l Dir Hs) as (m & M1 & M2);
      pose proof (eq_trans (eq_sym M1) G2) as G3; injection G3 as G3; subst n; rewrite G1 in E; first [discriminate | injection E as ->; rewrite M2 in K; discriminate]|]);
    (intros l'; destruct (loc_dec l' l) as [->|N]; [|rewrite fset_neq by exact N; apply B]);
    (assert (S0 : step (OFile l d) s = (fset s l (File d), VOk)) by
      (cbn [step]; destruct (s l) as [[|?]|] eqn:E'; [congruence|reflexivity|reflexivity]));
    right; cbn [touches texec]; rewrite S0; cbn [place app]; (split; [left; reflexivity|]);
    destruct (run_kind (p ++ q) (fset s l (File d)) l (File d) (fset_eq _ _ _)) as (m & M1 & M2);
    exists m, (File g); (split; [apply fset_eq|split; [exact M1|symmetry; exact M2]]).
    all: try (destruct n; discriminate).
  - unfold step_crash; cbn [snd fst]. destruct o as [l|l d| |].
    + destruct (s l) as [[|x]|] eqn:E.
      2: { assert (P : forall l0, s' l0 = s l0).
           { apply between_none with (p := Some (i, ODir l) :: p ++ q); [|exact B]. cbn [touches step]. rewrite E. reflexivity. }
           cbn [step]. rewrite P, E. cbn [fst]. exact B. }
      all: destruct (between_dir i l (p ++ q) s s' ltac:(congruence) B) as (_ & B' & S0 & S1);
           rewrite S1; apply between_lift_dir; [congruence|]; apply IH; exact B'.
    + destruct (s l) as [[|x]|] eqn:E.
      1: { assert (S0 : step (OFile l d) s = (s, VErr)) by (cbn [step]; rewrite E; reflexivity).
           assert (E' : s' l = Some Dir).
           { destruct (B l) as [E'|(_ & n & n' & E1 & E2 & K)]; [congruence|].
             destruct (run_kind (Some (i, OFile l d) :: p ++ q) s l Dir E) as (m & M1 & M2). pose proof (eq_trans (eq_sym M1) E2) as G3. injection G3 as G3. subst n.
             rewrite M2 in K. destruct n'; [exact E1|discriminate]. }
           assert (S1 : step (OFile l d) s' = (s', VErr)) by (cbn [step]; rewrite E'; reflexivity).
           rewrite S1. destruct i; cbn [fst]; [|exact B].
           apply between_lift_err; [exact S0|]. apply IH. exact (between_err _ _ _ _ S0 B). }
      all: destruct (between_file i l d (p ++ q) s s' ltac:(congruence) B) as (_ & B' & S0 & S1);
           rewrite S1; apply between_lift_file; [congruence|]; apply IH; exact B'.
    + cbn [step]. destruct i; cbn [fst]; [|exact B].
      apply between_lift_err; [reflexivity|]. apply IH. exact (between_err OErr _ _ _ eq_refl B).
    + cbn [step fst]. exact B.
Qed.
