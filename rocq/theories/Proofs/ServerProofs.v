(** The list that is served. *)
From Coq Require Import List ZArith Lia Bool.
From Verif.Model Require Import Base Str Tal Validator Output Octo Server.
From Verif.Spec Require Import OctoSpec ServerSpec.
From Verif.Proofs Require Import OutputProofs ListProofs OctoLoop.
Import ListNotations.
Open Scope Z_scope.

Lemma srv_app : forall a b, srv_after (a ++ b) = fold_left srv_step b (srv_after a).
Proof. intros a b. unfold srv_after. apply fold_left_app. Qed.

Lemma made_app : forall a b, made (a ++ b) = made a ++ made b.
Proof. intros. apply flat_map_app. Qed.

Lemma last_cons : forall A (z : list A) x d, last (x :: z) d = last z x.
Proof. intros A. induction z as [|y z IH]; intros x d; [reflexivity|]. change (last (x :: y :: z) d) with (last (y :: z) d). rewrite !IH. reflexivity. Qed.

Lemma list_after_aux : forall evs s, sv_list (fold_left srv_step evs s) = last (made evs) (sv_list s).
Proof.
  induction evs as [|e evs IH]; intros s; [reflexivity|]. cbn [fold_left]. rewrite IH.
  destruct e as [x y|l|]; try reflexivity.
  change (made (SList l :: evs)) with (l :: made evs). rewrite last_cons. reflexivity.
Qed.
Lemma list_after : forall evs, sv_list (srv_after evs) = last (made evs) new_list.
Proof. intros evs. apply (list_after_aux evs srv_start). Qed.

(** The lists made are a beginning of those of the passes. *)
Lemma made_publish : forall tr ls, exists r, ls = made (publish ls tr) ++ r.
Proof.
  induction tr as [|e tr IH]; intros ls; cbn [publish]; [exists ls; reflexivity|]. destruct e as [x y|f|].
  - apply IH.
  - destruct ls as [|l ls]; [exists []; reflexivity|]. destruct (IH ls) as (r & E). exists r. cbn. f_equal. exact E.
  - apply IH.
Qed.
Lemma made_prefix : forall c ps a b, server_run c ps = a ++ b -> exists r, map snd ps = made a ++ r.
Proof.
  intros c ps a b E. destruct (made_publish (fst (fst (loop_run c (map fst ps) lstart))) (map snd ps)) as (r & M).
  unfold server_run in E. rewrite E, made_app, app_assoc_reverse in M. eauto.
Qed.

(** The list after some assignments. *)
Lemma list_of_last : forall c ps a b, server_run c ps = a ++ b ->
  (made a = [] /\ sv_list (srv_after a) = new_list) \/ exists k, of_last ps a k (sv_list (srv_after a)).
Proof.
  intros c ps a b E. destruct (made_prefix c ps a b E) as (r & M). rewrite list_after.
  destruct (made a) as [|x xs] eqn:D; [left; auto|right]. exists (length xs). unfold of_last. rewrite D. split; [reflexivity|].
  assert (N : nth_error (map snd ps) (length xs) = Some (last (x :: xs) new_list)).
  { rewrite M. rewrite nth_error_app1 by (cbn [length]; lia).
    clear. revert x. induction xs as [|y ys IH]; intros x; [reflexivity|]. cbn [length nth_error]. rewrite IH. reflexivity. }
  unfold pass in *. rewrite nth_error_map in N. destruct (nth_error ps (length xs)) as [[f l]|] eqn:Q.
  - exists f. change (Some l = Some (last (x :: xs) new_list)) in N. congruence.
  - discriminate N.
Qed.

(** ** Flags *)
(** The events up to a point come from the trace up to a point. *)
Lemma publish_cut : forall tr ls a b, publish ls tr = a ++ b -> exists tra trb, tr = tra ++ trb /\ a = publish ls tra /\
  length (made a) = length (validations tra).
Proof.
  induction tr as [|e tr IH]; intros ls a b E.
  - cbn in E. destruct a; [|discriminate]. exists [], []. auto.
  - destruct a as [|x a]; [exists [], (e :: tr); auto|]. destruct e as [u w|f|]; cbn [publish] in E.
    + injection E as <- E. destruct (IH ls a b E) as (p & q & -> & -> & L). exists (Obs u w :: p), q. auto.
    + destruct ls as [|l ls]; [discriminate|]. injection E as <- E. destruct (IH ls a b E) as (p & q & -> & -> & L).
      exists (Validated f :: p), q. split; [reflexivity|]. split; [reflexivity|]. cbn. f_equal. exact L.
    + injection E as <- E. destruct (IH ls a b E) as (p & q & -> & -> & L). exists (Output :: p), q. auto.
Qed.

(** The flags were seen in the trace at a point from which no list was made, or
    are those of the start. *)
Lemma flags_seen : forall tr ls,
  let s := srv_after (publish ls tr) in
  (exists a b, tr = a ++ Obs (sv_stable s) (sv_hasprev s) :: b) \/ (sv_stable s = false /\ sv_hasprev s = false).
Proof.
  assert (G : forall tr ls s0, let s := fold_left srv_step (publish ls tr) s0 in
    (exists a b, tr = a ++ Obs (sv_stable s) (sv_hasprev s) :: b) \/ (sv_stable s = sv_stable s0 /\ sv_hasprev s = sv_hasprev s0)).
  { induction tr as [|e tr IH]; intros ls s0; cbv zeta; cbn [publish]; [right; auto|]. destruct e as [u w|f|].
    - cbn [fold_left]. destruct (IH ls (srv_step s0 (SFlags u w))) as [(a & b & E)|[E1 E2]].
      + left. exists (Obs u w :: a), b. cbn [app]. f_equal. exact E.
      + left. exists [], tr. cbn [app]. rewrite E1, E2. reflexivity.
    - destruct ls as [|l ls]; [right; auto|]. cbn [fold_left]. destruct (IH ls (srv_step s0 (SList l))) as [(a & b & E)|[E1 E2]].
      + left. exists (Validated f :: a), b. cbn [app]. f_equal. exact E.
      + right. auto.
    - cbn [fold_left]. destruct (IH ls (srv_step s0 SOutput)) as [(a & b & E)|[E1 E2]].
      + left. exists (Output :: a), b. cbn [app]. f_equal. exact E.
      + right. auto. }
  intros tr ls. destruct (G tr ls srv_start) as [H|[H1 H2]]; [left; exact H|right; auto].
Qed.

Lemma known_stable_more : forall c l r, earlier_stable c l -> earlier_stable c (l ++ r).
Proof.
  intros c l r [(a & f & b & -> & Q)|M].
  - left. exists a, f, (b ++ r). split; [|exact Q]. rewrite app_assoc_reverse. reflexivity.
  - right. rewrite app_length. lia.
Qed.

(** With -output.wait flags that allow an answer come after a validation that
    found nothing new, or after too many. *)
Lemma flags_stable : forall c ps a b, server_run c ps = a ++ b -> l_wait c = true ->
  served c (sv_stable (srv_after a)) (sv_hasprev (srv_after a)) = true ->
  earlier_stable c (firstn (length (made a)) (map fst ps)).
Proof.
  intros c ps a b E W V. unfold server_run in E. destruct (loop_run c (map fst ps) lstart) as [[tr e] s] eqn:R. cbn [fst] in E.
  destruct (publish_cut _ _ _ _ E) as (p & q & T & -> & L).
  destruct (flags_seen p (map snd ps)) as [(p1 & p2 & P)|[F1 F2]].
  - assert (T' : tr = p1 ++ Obs (sv_stable (srv_after (publish (map snd ps) p))) (sv_hasprev (srv_after (publish (map snd ps) p))) :: (p2 ++ q))
      by (rewrite T; rewrite P at 1; rewrite app_assoc_reverse; reflexivity).
    pose proof (served_only c _ tr e s p1 _ _ (p2 ++ q) W R T' V) as S.
    destruct (passes_validations _ _ _ _ _ _ (run_passes _ _ _ _ _ _ R)) as (rest & M & _).
    rewrite L. rewrite M, T, validations_app, app_assoc_reverse, firstn_app, firstn_all, Nat.sub_diag. cbn [firstn]. rewrite app_nil_r.
    assert (X : validations p = validations p1 ++ validations (Obs (sv_stable (srv_after (publish (map snd ps) p))) (sv_hasprev (srv_after (publish (map snd ps) p))) :: p2))
      by (rewrite P at 1; apply validations_app).
    rewrite X. apply known_stable_more. exact S.
  - unfold served in V. rewrite F1, F2, W in V. discriminate V.
Qed.

(** The beginning of a run. *)
Lemma run_begins : forall c p ps, exists z, server_run c (p :: ps) = SFlags false false :: SList (snd p) :: z.
Proof.
  intros c [f l] ps. unfold server_run. cbn [map fst snd loop_run]. destruct (loop_pass c f lstart) as [[tr e] s] eqn:P.
  assert (T : exists tr', tr = Obs false false :: Validated f :: tr').
  { rewrite pass_eq in P. cbv zeta in P.
    destruct (l_oneoff c && (forced c lstart || stable1 c f lstart)); [|destruct (forced c lstart || stable1 c f lstart)];
      injection P as <- _ _; eexists; reflexivity. }
  destruct T as (tr' & ->).
  destruct e; [|destruct (loop_run c (map fst ps) s) as [[tr2 e2] s2]]; cbn [fst app publish]; eexists; reflexivity.
Qed.

(** Before the first list the flags are those of the start. *)
Lemma flags_before : forall c ps a b, server_run c ps = a ++ b -> made a = [] ->
  sv_stable (srv_after a) = false /\ sv_hasprev (srv_after a) = false.
Proof.
  intros c ps a b E M. destruct ps as [|p ps]; [destruct a; [auto|discriminate E]|].
  destruct (run_begins c p ps) as (z & X). rewrite X in E. destruct a as [|x [|y a]]; [auto| |].
  - cbn [app] in E. injection E as <- _. auto.
  - cbn [app] in E. injection E as <- <- _. discriminate M.
Qed.

(** ** Answers *)
Section Answers.
Variable sha256 : bytes -> bytes.

Lemma answer_served : forall c s1 s2 t, answer_roas sha256 c s1 s2 t <> Unavailable <-> served c (sv_stable s1) (sv_hasprev s1) = true.
Proof.
  intros c s1 s2 t. unfold answer_roas, serve_roas, served.
  destruct (negb (sv_stable s1) && l_wait c && negb (sv_hasprev s1)); cbn [negb]; [split; [intros H; congruence|discriminate]|].
  destruct (negb (beq t []) && beq t (etag sha256 (sv_list s2))); split; intros; try discriminate; reflexivity.
Qed.

Lemma answer_content : forall c s1 s2 t e l, answer_roas sha256 c s1 s2 t = Content e l -> e = etag sha256 l /\ l = sv_list s2.
Proof.
  intros c s1 s2 t e l. unfold answer_roas, serve_roas.
  destruct (negb (sv_stable s1) && l_wait c && negb (sv_hasprev s1)); [discriminate|].
  destruct (negb (beq t []) && beq t (etag sha256 (sv_list s2))); [discriminate|]. intros H. injection H as <- <-. auto.
Qed.

Lemma answer_same : forall c s1 s2 t, answer_roas sha256 c s1 s2 t = NotModified -> t = etag sha256 (sv_list s2).
Proof.
  intros c s1 s2 t. unfold answer_roas. intros H. apply not_modified_iff in H as (_ & _ & H). exact H.
Qed.

(** A list that is given is that of the last validation. *)
Theorem given : forall c ps a b t e l, during (server_run c ps) a b ->
  answer_roas sha256 c (srv_after a) (srv_after (a ++ b)) t = Content e l ->
  e = etag sha256 l /\
  ((made (a ++ b) = [] /\ l = new_list /\ l_wait c = false) \/ exists k, of_last ps (a ++ b) k l) /\
  (l_wait c = true -> earlier_stable c (firstn (length (made a)) (map fst ps))).
Proof.
  intros c ps a b t e l (rest & D) A. destruct (answer_content _ _ _ _ _ _ A) as [E L]. split; [exact E|].
  assert (V : served c (sv_stable (srv_after a)) (sv_hasprev (srv_after a)) = true) by (apply (answer_served c _ (srv_after (a ++ b)) t); rewrite A; discriminate).
  assert (W : l_wait c = true -> earlier_stable c (firstn (length (made a)) (map fst ps))) by (intros W; apply (flags_stable c ps a (b ++ rest) D W V)).
  split; [|exact W]. rewrite app_assoc in D. destruct (list_of_last c ps (a ++ b) rest D) as [[M N]|K].
  - left. split; [exact M|]. split; [congruence|]. destruct (l_wait c) eqn:Lw; [|reflexivity]. exfalso. specialize (W eq_refl).
    rewrite made_app in M. apply app_eq_nil in M as [M _]. rewrite <- app_assoc in D.
    destruct (flags_before c ps a (b ++ rest) D M) as [F1 F2]. rewrite F1, F2 in V. unfold served in V. rewrite Lw in V. discriminate V.
  - right. rewrite L. exact K.
Qed.

(** "Not modified" concerns that list. *)
Theorem unchanged : forall c ps a b t, during (server_run c ps) a b ->
  answer_roas sha256 c (srv_after a) (srv_after (a ++ b)) t = NotModified ->
  exists l, t = etag sha256 l /\ ((made (a ++ b) = [] /\ l = new_list) \/ exists k, of_last ps (a ++ b) k l).
Proof.
  intros c ps a b t (rest & D) A. exists (sv_list (srv_after (a ++ b))). split; [apply (answer_same _ _ _ _ A)|].
  rewrite app_assoc in D. destruct (list_of_last c ps (a ++ b) rest D) as [[M N]|K]; auto.
Qed.

(** ** The client *)
Hypothesis octets : forall x, bytes_ok (sha256 x) = true.
Hypothesis no_collision : forall x y, sha256 x = sha256 y -> x = y.

Definition one_of (ps : list pass) (l : roalist) : Prop := l = new_list \/ exists f, In (f, l) ps.

Lemma of_last_one : forall ps evs k l, of_last ps evs k l -> one_of ps l.
Proof. intros ps evs k l (_ & f & N). right. exists f. eapply nth_error_In. exact N. Qed.

Lemma current_one : forall c ps a b, server_run c ps = a ++ b -> one_of ps (sv_list (srv_after a)).
Proof. intros c ps a b E. destruct (list_of_last c ps a b E) as [[_ N]|(k & K)]; [left; exact N|exact (of_last_one _ _ _ _ K)]. Qed.

Lemma tag_tells : forall ps l l', seconds_apart ps -> one_of ps l -> one_of ps l' -> etag sha256 l = etag sha256 l' -> l = l'.
Proof.
  intros ps l l' A H H' T. apply etag_inj in T as [G _]; [|exact octets|exact no_collision].
  unfold seconds_apart in A. inversion A as [|z zs N U]; subst.
  destruct H as [->|(f & H)], H' as [->|(f' & H')].
  - reflexivity.
  - exfalso. apply N. cbn in G. rewrite G. apply in_map_iff. exists (f', l'). auto.
  - exfalso. apply N. cbn in G. rewrite <- G. apply in_map_iff. exists (f, l). auto.
  - assert (Q : (f, l) = (f', l')); [|congruence].
    clear - U H H' G. induction ps as [|p ps IH]; [destruct H|]. cbn [map] in U. inversion U as [|z zs N U']; subst.
    destruct H as [->|H], H' as [E|H'].
    + exact E.
    + exfalso. apply N. apply in_map_iff. exists (f', l'). cbn [snd]. auto.
    + subst p. exfalso. apply N. apply in_map_iff. exists (f, l). cbn [snd]. auto.
    + apply IH; assumption.
Qed.

Lemma client_holds : forall c ps t l, client sha256 c (server_run c ps) (Some (t, l)) -> t = etag sha256 l /\ one_of ps l.
Proof.
  intros c ps t l H. remember (Some (t, l)) as h eqn:E. revert t l E.
  induction H as [|held a b H IH (rest & D)]; intros t l E; [discriminate|].
  destruct (answer_roas sha256 c (srv_after a) (srv_after (a ++ b)) (tag_held held)) as [| |e l'] eqn:A; cbn [keeps] in E.
  - apply IH. exact E.
  - apply IH. exact E.
  - injection E as <- <-. destruct (answer_content _ _ _ _ _ _ A) as [-> ->]. split; [reflexivity|].
    rewrite app_assoc in D. exact (current_one _ _ _ _ D).
Qed.

(** Unless it is refused a client holds the list of the last validation. *)
Theorem up_to_date : forall c ps held a b, seconds_apart ps -> client sha256 c (server_run c ps) held -> during (server_run c ps) a b ->
  let ans := answer_roas sha256 c (srv_after a) (srv_after (a ++ b)) (tag_held held) in
  ans <> Unavailable -> exists t l, keeps held ans = Some (t, l) /\
    ((made (a ++ b) = [] /\ l = new_list) \/ exists k, of_last ps (a ++ b) k l).
Proof.
  intros c ps held a b S C D. cbv zeta. intros V. pose proof D as (rest & D'). rewrite app_assoc in D'.
  pose proof (list_of_last c ps (a ++ b) rest D') as K.
  destruct (answer_roas sha256 c (srv_after a) (srv_after (a ++ b)) (tag_held held)) as [| |e l'] eqn:A; [congruence| |].
  - pose proof A as A'. apply answer_same in A. destruct held as [[t l]|].
    + destruct (client_holds c ps t l C) as [T O]. cbn [tag_held] in A. rewrite T in A.
      apply (tag_tells ps _ _ S O (current_one _ _ _ _ D')) in A. exists t, l. split; [reflexivity|]. rewrite A. exact K.
    + exfalso. unfold answer_roas in A'. apply not_modified_iff in A' as (_ & X & _). apply X. reflexivity.
  - exists e, l'. split; [reflexivity|]. apply answer_content in A as [_ ->]. exact K.
Qed.
End Answers.

(** ** Output of one-off mode *)
Theorem written : forall c ps a b, server_run c ps = a ++ SOutput :: b -> exists k, of_last ps a k (sv_list (srv_after a)).
Proof.
  intros c ps a b E. destruct (list_of_last c ps a _ E) as [[M _]|K]; [exfalso|exact K].
  destruct ps as [|p ps]; [destruct a; discriminate E|].
  destruct (run_begins c p ps) as (z & X). rewrite X in E. destruct a as [|x [|y a]]; cbn [app] in E.
  - discriminate E.
  - injection E as _ E. discriminate E.
  - injection E as <- <- _. discriminate M.
Qed.

(** ** Incomplete lists *)
Lemma run_snoc : forall c l s tr s1, loop_run c l s = (tr, false, s1) -> forall f,
  loop_run c (l ++ [f]) s = (let '(tr', e, s2) := loop_pass c f s1 in (tr ++ tr', e, s2)).
Proof.
  intros c. induction l as [|g l IH]; intros s tr s1 E f; cbn [loop_run app] in *.
  - injection E as <- <-. destruct (loop_pass c f s) as [[tr' [|]] s2]; [reflexivity|]. rewrite app_nil_r. reflexivity.
  - destruct (loop_pass c g s) as [[t1 [|]] s3]; [discriminate E|]. destruct (loop_run c l s3) as [[t2 e2] s4] eqn:R.
    injection E as <- -> <-. rewrite (IH _ _ _ R). destruct (loop_pass c f s4) as [[tr' e] s2]. rewrite app_assoc. reflexivity.
Qed.

Lemma publish_app : forall tr1 tr2 ls1 ls2, length (validations tr1) = length ls1 ->
  publish (ls1 ++ ls2) (tr1 ++ tr2) = publish ls1 tr1 ++ publish ls2 tr2.
Proof.
  induction tr1 as [|e tr1 IH]; intros tr2 ls1 ls2 L.
  - destruct ls1; [reflexivity|discriminate L].
  - destruct e as [x y|f|]; cbn [app publish].
    + f_equal. apply IH. exact L.
    + destruct ls1 as [|l ls1]; [discriminate L|]. cbn [app]. f_equal. apply IH. injection L as L. exact L.
    + f_equal. apply IH. exact L.
Qed.

(** While a previous stable state counts, the list of a validation that finds
    new repositories is given out, and then refused. *)
Theorem incomplete : forall sha256 c ps p tr s, loop_run c (map fst ps) lstart = (tr, false, s) ->
  l_wait c = true -> l_hasprev s = true -> ~ quiet (map fst ps) (fst p) ->
  exists a b, server_run c (ps ++ [p]) = a ++ b /\ of_last (ps ++ [p]) a (length ps) (snd p) /\
    answer_roas sha256 c (srv_after a) (srv_after a) [] = Content (etag sha256 (snd p)) (snd p).
Proof.
  intros sha256 c ps [f l] tr s R W P Q. unfold server_run. rewrite !map_app. cbn [map fst snd] in *.
  rewrite (run_snoc _ _ _ _ _ R). destruct (loop_pass c f s) as [[tr' e] s'] eqn:L. cbn [fst].
  destruct (passes_validations _ _ _ _ _ _ (run_passes _ _ _ _ _ _ R)) as (rest & M & Z). rewrite (Z eq_refl), app_nil_r in M.
  assert (N : length (validations tr) = length (map snd ps)) by (rewrite <- M, !map_length; reflexivity).
  rewrite publish_app by exact N.
  assert (T : exists t, tr' = Obs (l_stable s) (l_hasprev s) :: Validated f :: t).
  { rewrite pass_eq in L. cbv zeta in L.
    destruct (l_oneoff c && (forced c s || stable1 c f s)); [|destruct (forced c s || stable1 c f s)];
      injection L as <- _ _; eexists; reflexivity. }
  destruct T as (t & ->). cbn [publish].
  exists (publish (map snd ps) tr ++ [SFlags (l_stable s) (l_hasprev s); SList l]), (publish [] t).
  split; [rewrite app_assoc_reverse; reflexivity|].
  assert (MP : length (made (publish (map snd ps) tr)) = length ps).
  { destruct (publish_cut tr (map snd ps) (publish (map snd ps) tr) []) as (p1 & p2 & T & PP & C); [rewrite app_nil_r; reflexivity|].
    assert (G : forall tr ls, length (validations tr) = length ls -> made (publish ls tr) = ls).
    { clear. induction tr as [|e tr IH]; intros ls E; cbn [publish].
      - destruct ls; [reflexivity|discriminate E].
      - destruct e as [x y|g|]; try (apply IH; exact E). destruct ls as [|l ls]; [discriminate E|].
        change (made (SList l :: publish ls tr)) with (l :: made (publish ls tr)). f_equal. apply IH. injection E as E. exact E. }
    rewrite (G _ _ N), map_length. reflexivity. }
  split.
  - split; [rewrite made_app, app_length, MP; cbn; lia|]. exists f. rewrite nth_error_app2 by lia. rewrite Nat.sub_diag. reflexivity.
  - unfold answer_roas. rewrite srv_app. cbn [fold_left srv_step sv_stable sv_hasprev sv_list]. rewrite P. unfold serve_roas.
    rewrite Bool.andb_false_r. reflexivity.
Qed.
