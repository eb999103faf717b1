(** What a fetch that runs alone leaves. *)
From Coq Require Import String.
From Verif.Model Require Import Base Str Tal Paths Validator Cache Rrdp CacheConc.
From Verif.Spec Require Import RrdpSpec CacheConcSpec.
From Verif.Proofs Require Import RrdpCrash CacheConcProofs CacheConcThm CacheConcWitness.

Theorem replaced : forall cwd base domain s a e b s' f,
  plays (octo_cb cwd base domain) s (a ++ e :: b) s' -> ~ (e_withdraw e = true /\ e_snapshot e = false) ->
  e_path e = rsync_scheme ++ f -> contains (e_path e) domain = true -> bad_path f = false ->
  (forall e' f', In e' b -> e_path e' = rsync_scheme ++ f' ->
     resolve cwd (path_join base f') <> resolve cwd (path_join base f)) ->
  s' (resolve cwd (path_join base f)) = Some (File (e_data e)).
Proof.
  intros cwd base domain s a e b s' f P N E C B L.
  destruct (alone cwd base domain s _ s' P s (fun _ => eq_refl)) as (sched & t & R & T). rewrite <- T.
  assert (Q : conc_run (jobs_of cwd base ([] ++ (domain, a ++ e :: b) :: [])) sched s = ([Stopped VOk], t)) by exact R.
  assert (D := delivered_last cwd base [] domain [] sched s a e b (resolve cwd (path_join base f)) (e_data e)). rewrite Q in D. cbn [fst snd] in D. apply D.
  - repeat constructor.
  - exact (not_ignored e N).
  - exists f. auto.
  - intros e' d' I (f' & E' & _ & _ & X & _). exact (L e' f' I E' (eq_sym X)).
  - intros dom' es' e' d' [].
Qed.

(** *** Any order *)
Lemma carries_dec : forall cwd base domain e l, (exists d, carries cwd base domain e l d) \/ forall d, ~ carries cwd base domain e l d.
Proof.
  intros cwd base domain e l.
  assert (D : forall ops : list op, (exists d, In (OFile l d) ops) \/ forall d, ~ In (OFile l d) ops).
  { induction ops as [|o ops [(d & I)|IH]]; [right; auto|left; exists d; now right|].
    destruct o as [l'|l' d| |]; try (right; intros d [I|I]; [discriminate I|exact (IH _ I)]).
    destruct (loc_dec l' l) as [->|N]; [left; exists d; now left|right]. intros d' [I|I]; [injection I as I _; congruence|exact (IH _ I)]. }
  destruct (D (callback_ops cwd base domain (e_path e) (e_data e))) as [(d & I)|N].
  - left. exists d. now apply ops_carries.
  - right. intros d C. apply (N d). now apply ops_carries.
Qed.
Lemma last_split : forall cwd base domain l es,
  (forall e d, In e es -> ~ carries cwd base domain e l d) \/
  exists a e b d, es = a ++ e :: b /\ carries cwd base domain e l d /\ forall e' d', In e' b -> ~ carries cwd base domain e' l d'.
Proof.
  intros cwd base domain l. induction es as [|e es [N|(a & e0 & b & d & -> & C & N)]]; [left; auto| |].
  - destruct (carries_dec cwd base domain e l) as [(d & C)|M]; [right; exists [], e, es, d; auto|left].
    intros e' d' [<-|I]; [apply M|exact (N e' d' I)].
  - right. exists (e :: a), e0, b, d. auto.
Qed.

Theorem any_order : forall cwd base a dom es b l,
  (forall dom' es' e' d', In (dom', es') (a ++ b) -> In e' es' -> ~ carries cwd base dom' e' l d') ->
  (forall e d, In e es -> carries cwd base dom e l d -> ~ (e_withdraw e = true /\ e_snapshot e = false)) ->
  forall sched sched' s,
  let jobs := jobs_of cwd base (a ++ (dom, es) :: b) in
  all_done (fst (conc_run jobs sched s)) -> all_done (fst (conc_run jobs sched' s)) ->
  forall x, snd (conc_run jobs sched s) l = Some (File x) -> snd (conc_run jobs sched' s) l = Some (File x).
Proof.
  intros cwd base a dom es b l O W sched sched' s jobs A A' x X. unfold jobs in *.
  destruct (last_split cwd base dom l es) as [N|(es1 & e & es2 & d & -> & C & L)].
  - assert (Q : forall d, ~ writes (jobs_of cwd base (a ++ (dom, es) :: b)) l d).
    { intros d Wd. apply fetches_write in Wd as (dom' & es' & e' & F & E & C). apply in_app_or in F as [F|[F|F]].
      - exact (O _ _ _ _ (in_or_app _ _ _ (or_introl F)) E C).
      - injection F as <- <-. exact (N _ _ E C).
      - exact (O _ _ _ _ (in_or_app _ _ _ (or_intror F)) E C). }
    apply (others _ sched' s l Q). apply (others _ sched s l Q). exact X.
  - assert (I : ignored e = false) by (apply not_ignored, (W e d); [apply in_or_app; right; now left|exact C]).
    rewrite (delivered_last cwd base a dom b sched s es1 e es2 l d A I C L O) in X. injection X as <-.
    exact (delivered_last cwd base a dom b sched' s es1 e es2 l d A' I C L O).
Qed.
