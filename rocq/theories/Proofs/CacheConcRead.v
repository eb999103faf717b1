(** What is read after fetches that ran at the same time. *)
From Coq Require Import Lia String PeanoNat.
From Verif.Model Require Import Base Str Tal Paths Validator Cache Rrdp CacheConc.
From Verif.Spec Require Import PathSpec RrdpSpec CacheConcSpec.
From Verif.Proofs Require Import StrProofs PathProofs CacheProofs RrdpCrash RrdpWitness CacheThm CacheConcProofs CacheConcThm CacheConcWitness.

(** Operations that end a fetch, or the process. *)
Definition stops (x : fop) : Prop := x = (false, OErr) \/ exists g, x = (g, OFatal).
Definition yet (x : fop) (p : proc) : Prop :=
  match p with Running _ todo => In x todo | Stopped VOk => False | Stopped _ => True end.
Lemma yet_step : forall x n p s, stops x -> yet x p -> yet x (fst (proc_step n p s)).
Proof.
  intros x n [[((l & d) & k)|] todo|v] s S Y; cbn [proc_step]; [..|exact Y].
  - destruct (skipn k d); exact Y.
  - destruct todo as [|(g & o) r]; [destruct Y|]. destruct Y as [<- |Y].
    + destruct S as [S|(g' & S)]; injection S as -> ->; cbn; exact I.
    + destruct o as [l|l d| |].
      * destruct (step (ODir l) s) as (s' & []); [|destruct g|]; cbn [fst yet]; auto.
      * destruct (s l) as [[|y]|]; [destruct g|..]; cbn [fst yet]; auto.
      * cbn [step]. destruct g; cbn [fst yet]; auto.
      * exact I.
Qed.
Lemma done_none : forall jobs sched s j x, all_done (fst (conc_run jobs sched s)) -> In j jobs -> stops x -> ~ In x j.
Proof.
  intros jobs sched s j x A J S X. apply In_nth_error in J as (i & J).
  assert (H : exists p, nth_error (fst (conc_run jobs sched s)) i = Some p /\ yet x p).
  { refine (conc_inv (fun ps _ => exists p, nth_error ps i = Some p /\ yet x p) _ sched _ s _).
    - intros ps s1 k n q (p & P & Y) E. destruct (Nat.eq_dec k i) as [-> |N].
      + assert (q = p) by congruence. subst q. eexists. split; [eapply set_nth_eq, E|]. now apply yet_step.
      + exists p. split; [|exact Y]. now rewrite set_nth_neq.
    - exists (Running None j). split; [now apply map_nth_error|exact X]. }
  destruct H as (p & P & Y). unfold all_done in A. rewrite Forall_forall in A. rewrite (A p (nth_error_In _ _ P)) in Y. exact Y.
Qed.

Theorem accepted : forall cwd base fetches sched s dom es e,
  all_done (fst (conc_run (jobs_of cwd base fetches) sched s)) ->
  In (dom, es) fetches -> In e es -> contains (e_path e) dom = true ->
  exists f, e_path e = rsync_scheme ++ f /\ (ignored e = false -> bad_path f = false).
Proof.
  intros cwd base fetches sched s dom es e A F E C.
  assert (N : forall x, stops x -> ~ In x (job_ops cwd base dom es)).
  { intros x. apply (done_none _ _ _ _ _ A). apply in_map_iff. exists (dom, es). auto. }
  assert (O : forall o, In o (callback_ops cwd base dom (e_path e) (e_data e)) -> In (ignored e, o) (job_ops cwd base dom es)).
  { intros o H. apply in_flat_map. exists e. split; [exact E|]. now apply in_map. }
  unfold callback_ops in O. rewrite C in O. cbn [negb] in O. destruct (rsync_url_cases (e_path e)) as [(f & P)|U].
  - exists f. split; [exact P|]. intros IG. destruct (bad_path f) eqn:B; [exfalso|reflexivity].
    rewrite IG, P in O. unfold write_ops, extract_folders, extract_file, is_rsync_url in O. rewrite has_prefix_app, trim_scheme, B in O.
    apply (N (false, OErr)); [now left|]. apply O, in_or_app. right. now left.
  - exfalso. unfold write_ops, extract_folders in O. rewrite U in O. apply (N (ignored e, OFatal)); [right; now eexists|]. apply O. now left.
Qed.

Theorem accepted_names : forall cwd base fetches sched s dom es e,
  all_done (fst (conc_run (jobs_of cwd base fetches) sched s)) ->
  In (dom, es) fetches -> In e es -> contains (e_path e) dom = true ->
  exists f, e_path e = rsync_scheme ++ f /\
    (~ (e_withdraw e = true /\ e_snapshot e = false) -> forall a b, f <> a ++ str "../" ++ b /\ f <> a ++ str "..\" ++ b).
Proof.
  intros cwd base fetches sched s dom es e A F E C. destruct (accepted _ _ _ _ _ _ _ _ A F E C) as (f & P & B).
  exists f. split; [exact P|]. intros N a b. specialize (B (not_ignored e N)).
  assert (X : forall u, up_step u -> f <> a ++ u ++ b).
  { intros u U ->. assert (X : bad_path (a ++ u ++ b) = true) by (apply bad_path_iff; eauto). congruence. }
  split; apply X; [now left|now right].
Qed.

Theorem read_back : forall cwd base a dom b sched s es1 e es2 f, base <> [] ->
  all_done (fst (conc_run (jobs_of cwd base (a ++ (dom, es1 ++ e :: es2) :: b)) sched s)) ->
  ignored e = false ->
  e_path e = rsync_scheme ++ f -> contains f rsync_scheme = false -> contains (e_path e) dom = true ->
  (forall e' d', In e' es2 -> ~ carries cwd base dom e' (resolve cwd (get_local_path (octo_map base) (e_path e))) d') ->
  (forall dom' es' e' d', In (dom', es') (a ++ b) -> In e' es' ->
     ~ carries cwd base dom' e' (resolve cwd (get_local_path (octo_map base) (e_path e))) d') ->
  snd (conc_run (jobs_of cwd base (a ++ (dom, es1 ++ e :: es2) :: b)) sched s)
    (resolve cwd (get_local_path (octo_map base) (e_path e))) = Some (File (e_data e)).
Proof.
  intros cwd base a dom b sched s es1 e es2 f Hb A IG P C D L O.
  assert (BP : bad_path f = false).
  { destruct (accepted _ _ _ _ _ dom (es1 ++ e :: es2) e A) as (f' & P' & BP); [apply in_or_app; right; now left|apply in_or_app; right; now left|exact D|].
    rewrite P in P'. apply app_inv_head in P'. subst f'. exact (BP IG). }
  apply delivered_last; [exact A|exact IG| |exact L|exact O].
  exists f. repeat split; [exact P|exact D|exact BP|]. rewrite P. apply read_place; assumption.
Qed.
