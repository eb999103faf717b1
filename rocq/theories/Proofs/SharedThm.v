(** What the locks give, and what they do not. *)
From Coq Require Import Lia List Bool Arith.
From Verif.Model Require Import Base Shared.
From Verif.Spec Require Import SharedSpec.
From Verif.Proofs Require Import SharedProofs.
Import ListNotations.
Open Scope nat_scope.

(** ** What one step changes *)
Lemma step_thread : forall reads i s s' j t, step reads i s = Some s' -> nth_error (s_threads s) j = Some t ->
  exists t', nth_error (s_threads s') j = Some t' /\ t_kind t' = t_kind t /\ (j <> i -> t' = t).
Proof.
  intros reads i s s' j t H J. unfold step in H. destruct (nth_error (s_threads s) i) as [u|] eqn:N; [|discriminate]. cbv zeta in H.
  assert (G : forall c h w seen st, exists t', nth_error (s_threads (mkS (update i (mkT (t_kind u) c h w seen) (s_threads s)) st)) j = Some t' /\
            t_kind t' = t_kind t /\ (j <> i -> t' = t)).
  { intros c h w seen st. cbn [s_threads]. destruct (Nat.eq_dec j i) as [->|NE].
    - rewrite (update_same _ _ _ _ N). eexists. split; [reflexivity|]. cbn [t_kind]. split; congruence.
    - rewrite update_other by auto. eauto. }
  destruct (t_code u) as [|a c]; [discriminate|]. destruct a as [o|ws|].
  - destruct o as [l []|l|x|x v|].
    + destruct (t_wait u); [destruct (existsb _ _); [discriminate|]|]; injection H as <-; apply G.
    + destruct (existsb _ _); [discriminate|]; injection H as <-; apply G.
    + destruct (holds l u); [|discriminate]; injection H as <-; apply G.
    + injection H as <-; apply G.
    + injection H as <-; apply G.
    + destruct (reads i); [|discriminate]; injection H as <-; apply G.
  - injection H as <-. destruct (G c (t_held u) false (t_seen u) (s_store s)) as (t' & A & B). exists t'. split; [|exact B].
    cbn [s_threads] in *. rewrite nth_error_app1; [exact A|]. apply nth_error_Some. congruence.
  - destruct (forallb _ _); [|discriminate]; injection H as <-; apply G.
Qed.
Lemma run_thread : forall reads sched s s' j t, run reads sched s = Some s' -> nth_error (s_threads s) j = Some t ->
  exists t', nth_error (s_threads s') j = Some t' /\ t_kind t' = t_kind t.
Proof.
  induction sched as [|i r IH]; intros s s' j t H J; cbn [run] in H; [injection H as ->; eauto|].
  destruct (step reads i s) as [s1|] eqn:E; [|discriminate]. destruct (step_thread reads i s s1 j t E J) as (t1 & J1 & K & _).
  destruct (IH s1 s' j t1 H J1) as (t2 & J2 & K2). exists t2. split; congruence.
Qed.
Lemma run_app : forall reads a b s, run reads (a ++ b) s = match run reads a s with Some s' => run reads b s' | None => None end.
Proof. induction a as [|i a IH]; intros b s; cbn [app run]; [reflexivity|]. destruct (step reads i s); auto. Qed.

(** ** Guarded data *)
Theorem guarded : forall x l pl s, guard x = Some l -> sinv pl s -> ~ race x s.
Proof.
  intros x l pl s G (_ & T & X) (i & j & w & NE & (t & o & c & N & C & (v & ->)) & (u & o' & c' & N' & C' & W)).
  destruct (T i t N) as (_ & h & EH & EX & _). destruct (T j u N') as (_ & h' & EH' & EX' & _). rewrite C in EX. rewrite C' in EX'.
  cbn [exec exec_op] in EX. unfold may in EX. rewrite G in EX. destruct h as [(l1 & e)|]; [|discriminate].
  destruct (lock_eqb_spec l1 l) as [->|]; [|discriminate]. cbn [andb negb] in EX. rewrite orb_false_r in EX. destruct e; [|discriminate].
  assert (EL : exists e', h' = Some (l, e')).
  { assert (M : exists b, may h' x b = true).
    { destruct w; [destruct W as (v' & ->)|subst o']; cbn [exec exec_op] in EX'.
      - destruct (may h' x true) eqn:M; [eauto|discriminate].
      - destruct (may h' x false) eqn:M; [eauto|discriminate]. }
    destruct M as (b & M). unfold may in M. rewrite G in M. destruct h' as [(l2 & e2)|]; [|discriminate].
    destruct (lock_eqb_spec l2 l) as [->|]; [eauto|discriminate]. }
  destruct EL as (e' & ->). apply (X i j t u l e' NE N N'); [rewrite EH|rewrite EH']; now left.
Qed.

(** ** Data of the loop alone *)
Definition op_free (x : var) (o : op) : bool := match o with Rd y | Wr y _ => negb (var_eqb y x) | _ => true end.
Definition act_free (x : var) (a : act) : bool := match a with Do o => op_free x o | Fork ws => forallb (forallb (op_free x)) ws | Join => true end.
Definition fork_free (x : var) (a : act) : bool := match a with Do _ => true | _ => act_free x a end.
Definition alone (x : var) (s : state) : Prop :=
  forall i t, nth_error (s_threads s) i = Some t -> forallb (if i =? 0 then fork_free x else act_free x) (t_code t) = true.

Lemma alone_update : forall x s i t t' st, alone x s -> nth_error (s_threads s) i = Some t ->
  forallb (if i =? 0 then fork_free x else act_free x) (t_code t') = true -> alone x (mkS (update i t' (s_threads s)) st).
Proof.
  intros x s i t t' st A N H j u J. cbn [s_threads] in J. destruct (update_cases _ _ _ _ _ _ N J) as [(-> & ->)|(_ & J')]; auto.
Qed.
Lemma alone_step : forall x reads i s s', alone x s -> step reads i s = Some s' -> alone x s'.
Proof.
  intros x reads i s s' A H. unfold step in H. destruct (nth_error (s_threads s) i) as [t|] eqn:N; [|discriminate]. cbv zeta in H.
  pose proof (A i t N) as AT. destruct (t_code t) as [|a c] eqn:C; [discriminate|]. pose proof AT as AT'. cbn [forallb] in AT. apply andb_true_iff in AT. destruct AT as (AH & AC).
  destruct a as [o|ws|].
  - destruct o as [l []|l|y|y v|].
    + destruct (t_wait t); [destruct (existsb _ _); [discriminate|]|]; injection H as <-; apply (alone_update x s i t); auto; cbn [t_code]; rewrite ?C; assumption.
    + destruct (existsb _ _); [discriminate|]; injection H as <-; apply (alone_update x s i t); auto.
    + destruct (holds l t); [|discriminate]; injection H as <-; apply (alone_update x s i t); auto.
    + injection H as <-; apply (alone_update x s i t); auto.
    + injection H as <-; apply (alone_update x s i t); auto.
    + destruct (reads i); [|discriminate]; injection H as <-; apply (alone_update x s i t); auto.
  - injection H as <-. intros j u J. cbn [s_threads] in J.
    destruct (Nat.lt_ge_cases j (length (update i (mkT (t_kind t) c (t_held t) false (t_seen t)) (s_threads s)))) as [B|B].
    + rewrite nth_error_app1 in J by exact B. destruct (update_cases _ _ _ _ _ _ N J) as [(-> & ->)|(_ & J')]; auto.
    + rewrite nth_error_app2 in J by exact B. apply nth_error_In, in_map_iff in J. destruct J as (w & <- & IW). cbn [t_code].
      assert (j <> 0) by (rewrite update_length in B; assert (i < length (s_threads s)) by (apply nth_error_Some; congruence); lia).
      destruct (j =? 0) eqn:E; [apply Nat.eqb_eq in E; contradiction|].
      assert (F : forallb (forallb (op_free x)) ws = true) by (destruct (i =? 0); exact AH).
      rewrite forallb_forall in F. specialize (F w IW). rewrite forallb_forall in F. apply forallb_forall. intros a I. apply in_map_iff in I.
      destruct I as (o & <- & IO). exact (F o IO).
  - destruct (forallb _ (s_threads s)); [|discriminate]; injection H as <-; apply (alone_update x s i t); auto.
Qed.
Lemma alone_run : forall x reads sched s s', alone x s -> run reads sched s = Some s' -> alone x s'.
Proof.
  induction sched as [|i r IH]; intros s s' A H; cbn [run] in H; [injection H as <-; assumption|].
  destruct (step reads i s) as [s1|] eqn:E; [|discriminate]. eapply IH; [|exact H]. eapply alone_step; eauto.
Qed.

Lemma fork_free_do : forall x l, forallb (fork_free x) (map Do l) = true.
Proof. induction l; auto. Qed.
Lemma flat_free : forall {A} x (f : A -> list op) l, (forall a, forallb (op_free x) (f a) = true) -> forallb (op_free x) (flat_map f l) = true.
Proof. intros A x f l H. induction l as [|a l IH]; cbn [flat_map]; [reflexivity|]. now rewrite forallb_app, H, IH. Qed.
Definition loop_only (x : var) : bool := match x with XTals | XCurrent | XPrev => true | _ => false end.
(** What no worker touches. *)
Definition worker_free (x : var) : bool := match x with XRrdp | XDomain | XJobs => false | _ => true end.
Lemma loop_fork_free : forall x, worker_free x = true -> forall rs v, forallb (fork_free x) (main_loop v rs) = true.
Proof.
  intros x WF. induction rs as [|r rs IH]; intros v; cbn [main_loop]; [reflexivity|]. rewrite forallb_app, IH, andb_true_r.
  unfold iteration. rewrite !forallb_app, !fork_free_do.
  assert (A : forallb (fork_free x) (do_rrdp v r) = true).
  { unfold do_rrdp. destruct (r_rrdp r) as [[file jobs]|]; [|reflexivity]. rewrite forallb_app. cbn [forallb].
    assert (F : fork_free x (Fork (map (flat_map (fetch_rrdp v)) jobs)) = true).
    { cbn [fork_free act_free]. apply forallb_forall. intros w I. apply in_map_iff in I. destruct I as (js & <- & _). apply flat_free.
      intros [|[]]; destruct x; try discriminate; reflexivity. }
    rewrite F, !forallb_app, fork_free_do. destruct file as [[]|]; reflexivity. }
  assert (B : forallb (fork_free x) (main_rsync r) = true).
  { unfold main_rsync. cbn [forallb]. rewrite forallb_app, fork_free_do. cbn [fork_free act_free forallb].
    assert (F : forall n, forallb (forallb (op_free x)) (repeat [] n) = true) by (induction n; auto). now rewrite F. }
  rewrite A, B. destruct (r_stable r); reflexivity.
Qed.
Lemma alone_start : forall x rs qs, loop_only x = true -> alone x (start rs qs).
Proof.
  intros x rs qs LO [|k] t H; cbn [start s_threads nth_error] in H.
  - injection H as <-. cbn [Nat.eqb t_code]. apply loop_fork_free. destruct x; try discriminate; reflexivity.
  - rewrite nth_error_map in H. destruct (nth_error qs k) as [q|]; [|discriminate]. cbn [option_map] in H. injection H as <-. cbn [Nat.eqb t_code].
    destruct x; try discriminate; destruct q as [[]|[]| |]; reflexivity.
Qed.
Theorem alone_no_race : forall x s, alone x s -> ~ race x s.
Proof.
  intros x s A (i & j & w & NE & (t & o & c & N & C & (v & ->)) & (u & o' & c' & N' & C' & W)).
  assert (VE : var_eqb x x = true) by (destruct (var_eqb_spec x x); congruence).
  pose proof (A i t N) as A1. pose proof (A j u N') as A2. rewrite C in A1. rewrite C' in A2.
  destruct i as [|i].
  - destruct j as [|j]; [congruence|]. cbn [Nat.eqb forallb act_free] in A2. destruct w; [destruct W as (v' & ->)|subst o']; cbn [op_free] in A2; rewrite VE in A2; discriminate.
  - cbn [Nat.eqb forallb act_free op_free] in A1. rewrite VE in A1. discriminate.
Qed.

(** ** The theorems about what holds *)
Lemma reached_inv : forall reads rs qs s, reached reads rs qs s -> sinv (fun _ => true) s.
Proof. intros reads rs qs s (sched & R). eapply sinv_run; [|exact R]. apply sinv_start. auto. Qed.

Theorem no_race : forall reads rs qs s x, In x [XFetch; XDomain; XJobs; XRrdp; XInfo; XRes; XTals; XCurrent; XPrev] ->
  reached reads rs qs s -> ~ race x s.
Proof.
  intros reads rs qs s x I R. destruct (loop_only x) eqn:LO.
  - destruct R as (sched & R). apply alone_no_race. eapply alone_run; [|exact R]. now apply alone_start.
  - assert (G : exists l, guard x = Some l).
    { cbn [In] in I. destruct x; try discriminate; cbn [guard]; eauto; exfalso; repeat (destruct I as [E|I]; [discriminate|]); exact I. }
    destruct G as (l & G). eapply guarded; [exact G|]. eapply reached_inv; exact R.
Qed.

Theorem unlock_held : forall reads rs qs s i t l c, reached reads rs qs s -> nth_error (s_threads s) i = Some t ->
  t_code t = Do (Unlock l) :: c -> In l (map fst (t_held t)).
Proof.
  intros reads rs qs s i t l c R N C. destruct (reached_inv _ _ _ _ R) as (_ & T & _). destruct (T i t N) as (_ & h & EH & EX & _).
  rewrite C in EX. cbn [exec exec_op] in EX. destruct h as [(l' & e)|]; [|discriminate]. destruct (lock_eqb_spec l' l) as [->|]; [|discriminate].
  rewrite EH. now left.
Qed.
Theorem ended_free : forall reads rs qs s i t, reached reads rs qs s -> nth_error (s_threads s) i = Some t -> t_code t = [] -> t_held t = [].
Proof.
  intros reads rs qs s i t R N C. destruct (reached_inv _ _ _ _ R) as (_ & T & _). destruct (T i t N) as (_ & h & EH & EX & _).
  rewrite C in EX. cbn [exec] in EX. injection EX as ->. exact EH.
Qed.

Theorem goes_on : forall reads rs qs s, (forall k, ~ slow_client reads qs k) -> reached reads rs qs s -> can_finish reads qs s.
Proof.
  intros reads rs qs s NS (sched & R).
  assert (I : sinv reads s).
  { eapply sinv_run; [|exact R]. apply sinv_start. intros k q Q NC. destruct (reads (S k)) eqn:E; [reflexivity|]. exfalso. apply (NS k).
    split; [|exact E]. rewrite Q. destruct q as [|[]| |]; try discriminate. reflexivity. }
  destruct (finishes reads reads (fun i H => H) s I) as (sched' & s' & R' & AD & I'). exists sched', s'. split; [exact R'|].
  assert (RR : run reads (sched ++ sched') (start rs qs) = Some s') by (rewrite run_app, R; exact R').
  split.
  - destruct (run_thread reads _ _ _ 0 _ RR eq_refl) as (t & N & K). exists t. split; [exact N|]. apply (AD 0 t N). unfold eligible. rewrite K. discriminate.
  - intros k L RK. destruct (nth_error qs k) as [q|] eqn:Q; [|apply nth_error_None in Q; lia].
    destruct (run_thread reads _ _ _ (S k) (mkT Request (map Do (serve q)) [] false []) RR) as (t & N & K).
    { cbn [start s_threads nth_error]. rewrite nth_error_map, Q. reflexivity. }
    exists t. split; [exact N|]. apply (AD (S k) t N). intros _. exact RK.
Qed.

(** ** What is served does not go back *)
Definition wr (x : var) (a : act) : list nat := match a with Do (Wr y v) => if var_eqb y x then [v] else [] | _ => [] end.
Fixpoint asc (n : nat) (l : list nat) : Prop := match l with [] => True | v :: r => n <= v /\ asc v r end.
Lemma asc_eq : forall v l n m, n <= v -> Forall (eq v) l -> (forall k, k <= v -> asc k m) -> asc n (l ++ m).
Proof.
  intros v l. induction l as [|x l IH]; intros n m L F H; cbn [app]; [auto|]. inversion F; subst. cbn [asc]. split; [exact L|].
  apply IH; auto.
Qed.
Definition writes_only (v : nat) (a : act) : Prop := match a with Do (Wr _ w) => w = v | _ => True end.
Definition op_writes (v : nat) (o : op) : Prop := match o with Wr _ w => w = v | _ => True end.
Lemma writes_map : forall v l, Forall (op_writes v) l -> Forall (writes_only v) (map Do l).
Proof. intros v l H. apply Forall_map. eapply Forall_impl; [|exact H]. intros o; exact (fun x => x). Qed.
Lemma writes_flat : forall {A} v (f : A -> list op) l, (forall a, Forall (op_writes v) (f a)) -> Forall (op_writes v) (flat_map f l).
Proof. intros A v f l H. induction l as [|a l IH]; cbn [flat_map]; [constructor|]. apply Forall_app. auto. Qed.
Lemma writes_repeat : forall v o n, op_writes v o -> Forall (op_writes v) (repeat o n).
Proof. intros v o n H. induction n; cbn [repeat]; auto. Qed.
Ltac wall := repeat (apply Forall_cons; [exact I || reflexivity|]); try apply Forall_nil.
Lemma iteration_writes : forall v r, Forall (writes_only v) (iteration v r).
Proof.
  intros v r. unfold iteration. repeat (apply Forall_app; split).
  - unfold do_rrdp. destruct (r_rrdp r) as [[file jobs]|]; [|constructor]. apply Forall_app. split; [destruct file as [[]|]; wall|].
    apply Forall_cons; [exact I|]. apply Forall_app. split; [wall|]. cbn [app]. destruct file; wall.
  - apply writes_map. unfold main_tal. apply Forall_cons; [exact I|]. apply Forall_app. split; [|wall]. apply writes_flat. intros []; wall.
  - unfold main_rsync. wall.
  - apply writes_map. unfold main_validation, generate. apply Forall_app. split.
    + apply writes_flat. intros e. apply Forall_app. split; [now apply writes_repeat|]. apply writes_flat. intros []; wall.
    + apply Forall_app. split; [wall|]. apply Forall_app. split; [|wall]. apply Forall_cons; [reflexivity|]. apply Forall_app.
      split; [|wall]. apply writes_flat. intros e. wall.
  - apply writes_map. unfold reduce. apply Forall_cons; [exact I|]. apply Forall_cons; [exact I|]. now apply writes_repeat.
  - destruct (r_stable r); wall.
Qed.
Lemma loop_asc : forall x rs v n, n <= v -> asc n (flat_map (wr x) (main_loop v rs)).
Proof.
  intros x. induction rs as [|r rs IH]; intros v n L; cbn [main_loop]; [exact I|]. rewrite flat_map_app. apply (asc_eq v); [exact L| |].
  - pose proof (iteration_writes v r) as W. induction W as [|a l A W IW]; cbn [flat_map]; [constructor|]. apply Forall_app. split; [|exact IW].
    destruct a as [[| | |y w|]| |]; cbn [wr]; try constructor. cbn [writes_only] in A. subst w. destruct (var_eqb y x); constructor; auto.
  - intros k K. apply IH. lia.
Qed.

Definition op_quiet (x : var) (o : op) : bool := match o with Wr y _ => negb (var_eqb y x) | _ => true end.
Definition act_quiet (x : var) (a : act) : bool := match a with Do o => op_quiet x o | Fork ws => forallb (forallb (op_quiet x)) ws | Join => true end.
Definition fork_quiet (x : var) (a : act) : bool := match a with Do _ => true | _ => act_quiet x a end.
Definition rising (x : var) (s : state) : Prop :=
  (exists m, nth_error (s_threads s) 0 = Some m /\ asc (s_store s x) (flat_map (wr x) (t_code m))) /\
  forall i t, nth_error (s_threads s) i = Some t -> forallb (if i =? 0 then fork_quiet x else act_quiet x) (t_code t) = true.

Lemma rising_update : forall x s i t t' st, rising x s -> nth_error (s_threads s) i = Some t ->
  forallb (if i =? 0 then fork_quiet x else act_quiet x) (t_code t') = true ->
  (i = 0 -> asc (s_store s x) (flat_map (wr x) (t_code t)) -> asc (st x) (flat_map (wr x) (t_code t'))) ->
  (i <> 0 -> st x = s_store s x) -> rising x (mkS (update i t' (s_threads s)) st).
Proof.
  intros x s i t t' st ((m & M & AS) & Q) N QT A0 A1. split; cbn [s_threads s_store].
  - destruct i as [|i].
    + exists t'. split; [eapply update_same; exact M|]. apply A0; [reflexivity|]. assert (m = t) by congruence. now subst m.
    + exists m. rewrite update_other by lia. split; [exact M|]. rewrite A1 by lia. exact AS.
  - intros j u J. destruct (update_cases _ _ _ _ _ _ N J) as [(-> & ->)|(_ & J')]; auto.
Qed.
Lemma rising_step : forall x reads i s s', rising x s -> step reads i s = Some s' -> rising x s' /\ s_store s x <= s_store s' x.
Proof.
  intros x reads i s s' R H. pose proof R as ((m & M & AS) & Q). unfold step in H. destruct (nth_error (s_threads s) i) as [t|] eqn:N; [|discriminate]. cbv zeta in H.
  pose proof (Q i t N) as QT. destruct (t_code t) as [|a c] eqn:C; [discriminate|]. pose proof QT as QT'. cbn [forallb] in QT. apply andb_true_iff in QT. destruct QT as (QH & QC).
  destruct a as [o|ws|].
  - destruct o as [l []|l|y|y v|].
    + destruct (t_wait t); [destruct (existsb _ _); [discriminate|]|]; injection H as <-; (split; [|cbn [s_store]; lia]); apply (rising_update x s i t); auto; cbn [t_code]; rewrite ?C; auto.
    + destruct (existsb _ _); [discriminate|]; injection H as <-; (split; [|cbn [s_store]; lia]); apply (rising_update x s i t); auto; cbn [t_code]; rewrite ?C; auto.
    + destruct (holds l t); [|discriminate]; injection H as <-; (split; [|cbn [s_store]; lia]); apply (rising_update x s i t); auto; cbn [t_code]; rewrite ?C; auto.
    + injection H as <-; (split; [|cbn [s_store]; lia]); apply (rising_update x s i t); auto; cbn [t_code]; rewrite ?C; auto.
    + injection H as <-. destruct (var_eqb y x) eqn:VE.
      * destruct i as [|i]; [|cbn [Nat.eqb act_quiet op_quiet] in QH; rewrite VE in QH; discriminate].
        assert (m = t) by congruence. subst m. rewrite C in AS. cbn [flat_map wr] in AS. rewrite VE in AS. cbn [app asc] in AS. destruct AS as (L & AS).
        split; [|cbn [s_store]; rewrite VE; exact L]. apply (rising_update x s 0 t); auto; cbn [t_code]; [|congruence].
        intros _ _. rewrite VE. exact AS.
      * split; [|cbn [s_store]; rewrite VE; lia]. apply (rising_update x s i t); auto; cbn [t_code]; rewrite ?C, ?VE; auto.
        intros _. cbn [flat_map wr]. rewrite VE. auto.
    + destruct (reads i); [|discriminate]; injection H as <-; (split; [|cbn [s_store]; lia]); apply (rising_update x s i t); auto; cbn [t_code]; rewrite ?C; auto.
  - injection H as <-. split; [|cbn [s_store]; lia]. set (t' := mkT (t_kind t) c (t_held t) false (t_seen t)).
    assert (R1 : rising x (mkS (update i t' (s_threads s)) (s_store s))).
    { apply (rising_update x s i t); auto; cbn [t_code]; rewrite ?C; auto. }
    destruct R1 as ((m1 & M1 & AS1) & Q1). cbn [s_threads s_store] in *. split; cbn [s_threads s_store].
    + exists m1. split; [|exact AS1]. rewrite nth_error_app1; [exact M1|]. apply nth_error_Some. congruence.
    + intros j u J. destruct (Nat.lt_ge_cases j (length (update i t' (s_threads s)))) as [B|B].
      * rewrite nth_error_app1 in J by exact B. auto.
      * rewrite nth_error_app2 in J by exact B. apply nth_error_In, in_map_iff in J. destruct J as (w & <- & IW). cbn [t_code].
        assert (j <> 0) by (rewrite update_length in B; assert (i < length (s_threads s)) by (apply nth_error_Some; congruence); lia).
        destruct (j =? 0) eqn:E; [apply Nat.eqb_eq in E; contradiction|].
        assert (F : forallb (forallb (op_quiet x)) ws = true) by (destruct (i =? 0); exact QH).
        rewrite forallb_forall in F. specialize (F w IW). rewrite forallb_forall in F. apply forallb_forall. intros a Ia. apply in_map_iff in Ia.
        destruct Ia as (o & <- & IO). exact (F o IO).
  - destruct (forallb _ (s_threads s)); [|discriminate]; injection H as <-; (split; [|cbn [s_store]; lia]); apply (rising_update x s i t); auto; cbn [t_code]; rewrite ?C; auto.
Qed.
Lemma rising_run : forall x reads sched s s', rising x s -> run reads sched s = Some s' -> rising x s' /\ s_store s x <= s_store s' x.
Proof.
  induction sched as [|i r IH]; intros s s' R H; cbn [run] in H; [injection H as ->; auto|].
  destruct (step reads i s) as [s1|] eqn:E; [|discriminate]. destruct (rising_step x reads i s s1 R E) as (R1 & L1).
  destruct (IH s1 s' R1 H) as (R2 & L2). split; [exact R2|lia].
Qed.
Lemma free_quiet : forall x a, fork_free x a = true -> fork_quiet x a = true.
Proof.
  intros x [o|ws|] H; auto. cbn [fork_free fork_quiet act_free act_quiet] in *. rewrite forallb_forall in *. intros w I. specialize (H w I).
  rewrite forallb_forall in *. intros o IO. specialize (H o IO). destruct o; auto.
Qed.
Lemma rising_start : forall x rs qs, worker_free x = true -> rising x (start rs qs).
Proof.
  intros x rs qs WF. split.
  - eexists. split; [reflexivity|]. cbn [t_code]. apply loop_asc. cbn. lia.
  - intros [|k] t H; cbn [start s_threads nth_error] in H.
    + injection H as <-. cbn [Nat.eqb t_code]. pose proof (loop_fork_free x WF rs 1) as F. rewrite forallb_forall in *. intros a I. apply free_quiet. auto.
    + rewrite nth_error_map in H. destruct (nth_error qs k) as [q|]; [|discriminate]. cbn [option_map] in H. injection H as <-. cbn [Nat.eqb t_code].
      destruct q as [[]|[]| |]; reflexivity.
Qed.
Theorem no_going_back : forall reads rs qs s sched s' x, In x [XRoas; XInfo; XRes; XComputed; XCounts; XDuration] ->
  reached reads rs qs s -> run reads sched s = Some s' -> s_store s x <= s_store s' x.
Proof.
  intros reads rs qs s sched s' x I (sched0 & R0) R.
  assert (WF : worker_free x = true) by (cbn [In] in I; repeat (destruct I as [<-|I]; [reflexivity|]); destruct I).
  destruct (rising_run x reads sched0 _ _ (rising_start x rs qs WF) R0) as (R1 & _). exact (proj2 (rising_run x reads sched s s' R1 R)).
Qed.

(** ** A client that does not read *)
Definition stuck (reads : nat -> bool) (l : lock) (i : nat) (s : state) : Prop :=
  i <> 0 /\ reads i = false /\ (exists t c, nth_error (s_threads s) i = Some t /\ t_code t = Do Send :: c /\ holds l t = true) /\
  exists m, nth_error (s_threads s) 0 = Some m /\ In (Do (Lock l true)) (t_code m).
Lemma holder_blocks : forall l i t s, nth_error (s_threads s) i = Some t -> holds l t = true -> existsb (holds l) (s_threads s) = true.
Proof. intros l i t s N H. apply existsb_exists. exists t. split; [eapply nth_error_In; exact N|exact H]. Qed.

Lemma in_tail : forall {A} (x a : A) l, In x (a :: l) -> a <> x -> In x l.
Proof. intros A x a l [E|I] N; [contradiction|exact I]. Qed.
Lemma stuck_step : forall reads l i j s s', stuck reads l i s -> step reads j s = Some s' -> stuck reads l i s'.
Proof.
  intros reads l i j s s' (I0 & RF & (t & c & N & C & HL) & (m & M & IM)) H.
  destruct (step_thread reads j s s' i t H N) as (t' & N' & _ & SAME).
  assert (JI : j <> i).
  { intros ->. unfold step in H. rewrite N in H. cbv zeta in H. rewrite C, RF in H. discriminate. }
  rewrite (SAME (not_eq_sym JI)) in N'. split; [exact I0|]. split; [exact RF|]. split; [exists t, c; auto|].
  destruct (step_thread reads j s s' 0 m H M) as (m' & M' & _ & SM). destruct (Nat.eq_dec 0 j) as [<-|NJ]; [|exists m'; rewrite (SM NJ) in *; auto].
  exists m'. split; [exact M'|]. unfold step in H. rewrite M in H. cbv zeta in H. pose proof (holder_blocks l i t s N HL) as HB.
  assert (G : forall c0 h w seen st rest, s' = mkS (update 0 (mkT (t_kind m) c0 h w seen) (s_threads s) ++ rest) st -> t_code m' = c0).
  { intros c0 h w seen st rest ->. cbn [s_threads] in M'. rewrite nth_error_app1 in M' by (rewrite update_length; apply nth_error_Some; congruence).
    rewrite (update_same _ _ _ _ M) in M'. injection M' as <-. reflexivity. }
  assert (G0 : forall c0 h w seen st, s' = mkS (update 0 (mkT (t_kind m) c0 h w seen) (s_threads s)) st -> t_code m' = c0).
  { intros c0 h w seen st E. apply (G c0 h w seen st []). now rewrite app_nil_r. }
  destruct (t_code m) as [|a cm] eqn:CM; [discriminate|]. destruct a as [o|ws|].
  - destruct o as [l' []|l'|y|y v|].
    + destruct (t_wait m).
      * destruct (lock_eq_dec l' l) as [->|NL]; [rewrite HB in H; discriminate|].
        destruct (existsb _ _); [discriminate|]. injection H as H. rewrite (G0 _ _ _ _ _ (eq_sym H)). apply (in_tail _ _ _ IM). congruence.
      * injection H as H. rewrite (G0 _ _ _ _ _ (eq_sym H)). exact IM.
    + destruct (existsb _ _); [discriminate|]. injection H as H. rewrite (G0 _ _ _ _ _ (eq_sym H)). apply (in_tail _ _ _ IM). congruence.
    + destruct (holds l' m); [|discriminate]. injection H as H. rewrite (G0 _ _ _ _ _ (eq_sym H)). apply (in_tail _ _ _ IM). congruence.
    + injection H as H. rewrite (G0 _ _ _ _ _ (eq_sym H)). apply (in_tail _ _ _ IM). congruence.
    + injection H as H. rewrite (G0 _ _ _ _ _ (eq_sym H)). apply (in_tail _ _ _ IM). congruence.
    + destruct (reads 0); [|discriminate]. injection H as H. rewrite (G0 _ _ _ _ _ (eq_sym H)). apply (in_tail _ _ _ IM). congruence.
  - injection H as H. rewrite (G _ _ _ _ _ _ (eq_sym H)). apply (in_tail _ _ _ IM). congruence.
  - destruct (forallb _ (s_threads s)); [|discriminate]. injection H as H. rewrite (G0 _ _ _ _ _ (eq_sym H)). apply (in_tail _ _ _ IM). congruence.
Qed.
Lemma stuck_run : forall reads l i sched s s', stuck reads l i s -> run reads sched s = Some s' -> stuck reads l i s'.
Proof.
  induction sched as [|j r IH]; intros s s' S0 H; cbn [run] in H; [injection H as <-; assumption|].
  destruct (step reads j s) as [s1|] eqn:E; [|discriminate]. eapply IH; [|exact H]. eapply stuck_step; eauto.
Qed.
Lemma stuck_never : forall reads l i s, stuck reads l i s -> never reads s loop_done.
Proof.
  intros reads l i s S0 sched s' H (t & N & C). destruct (stuck_run reads l i sched s s' S0 H) as (_ & _ & _ & m & M & IM).
  assert (m = t) by congruence. subst m. rewrite C in IM. destruct IM.
Qed.

Theorem slow_stalls : forall reads rs qs k, rs <> [] -> slow_client reads qs k -> exists s, reached reads rs qs s /\ never reads s loop_done.
Proof.
  intros reads rs qs k NE (Q & RF).
  assert (N0 : nth_error (s_threads (start rs qs)) (S k) = Some (mkT Request (map Do (serve (GetResources true))) [] false [])).
  { cbn [start s_threads nth_error]. now rewrite nth_error_map, Q. }
  assert (FR : existsb (fun u => holds_excl LRes u || waits_for LRes u) (s_threads (start rs qs)) = false).
  { destruct (existsb _ _) eqn:E; [|reflexivity]. apply existsb_exists in E. destruct E as (u & U & E). cbn [start s_threads] in U.
    destruct U as [<-|U]; [discriminate|]. apply in_map_iff in U. destruct U as (q & <- & _). discriminate. }
  set (th := s_threads (start rs qs)) in *.
  set (t1 := mkT Request [Do (Rd XRes); Do Send; Do (Unlock LRes)] [(LRes, false)] false []).
  set (t2 := mkT Request [Do Send; Do (Unlock LRes)] [(LRes, false)] false [(XRes, 0)]).
  assert (S1 : step reads (S k) (start rs qs) = Some (mkS (update (S k) t1 th) (fun _ => 0))).
  { unfold step. fold th. rewrite N0. cbn [map serve t_code]. rewrite FR. reflexivity. }
  assert (S2 : step reads (S k) (mkS (update (S k) t1 th) (fun _ => 0)) = Some (mkS (update (S k) t2 (update (S k) t1 th)) (fun _ => 0))).
  { unfold step. cbn [s_threads]. rewrite (update_same _ _ _ _ N0). reflexivity. }
  exists (mkS (update (S k) t2 (update (S k) t1 th)) (fun _ => 0)). split.
  - exists [S k; S k]. cbn [run]. now rewrite S1, S2.
  - apply (stuck_never reads LRes (S k)). split; [lia|]. split; [exact RF|]. cbn [s_threads]. split.
    + exists t2, [Do (Unlock LRes)]. split; [eapply update_same; eapply update_same; exact N0|]. split; reflexivity.
    + exists (mkT Main (main_loop 1 rs) [] false []). rewrite !update_other by lia. split; [reflexivity|]. cbn [t_code].
      destruct rs as [|r rs]; [congruence|]. cbn [main_loop]. apply in_or_app. left. unfold iteration. do 3 (apply in_or_app; right).
      apply in_or_app. left. apply in_map. unfold main_validation, generate. apply in_or_app. right. apply in_or_app. right. apply in_or_app. left.
      right. apply in_or_app. right. right. now left.
Qed.

(** When the loop waits, those who come later wait as well. *)
Definition queued (reads : nat -> bool) (l : lock) (i j : nat) (s : state) : Prop :=
  i <> j /\ i <> 0 /\ j <> 0 /\ reads i = false /\
  (exists t c, nth_error (s_threads s) i = Some t /\ t_code t = Do Send :: c /\ holds l t = true) /\
  (exists m c, nth_error (s_threads s) 0 = Some m /\ t_code m = Do (Lock l true) :: c /\ t_wait m = true) /\
  exists u c, nth_error (s_threads s) j = Some u /\ t_code u = Do (Lock l false) :: c.
Lemma queued_step : forall reads l i j a s s', queued reads l i j s -> step reads a s = Some s' -> queued reads l i j s'.
Proof.
  intros reads l i j a s s' (IJ & I0 & J0 & RF & (t & c & N & C & HL) & (m & cm & M & CM & W) & (u & cu & U & CU)) H.
  pose proof (holder_blocks l i t s N HL) as HB.
  assert (AI : i <> a) by (intros <-; unfold step in H; rewrite N in H; cbv zeta in H; rewrite C, RF in H; discriminate).
  assert (AM : 0 <> a) by (intros <-; unfold step in H; rewrite M in H; cbv zeta in H; rewrite CM, W, HB in H; discriminate).
  assert (LL : lock_eqb l l = true) by (destruct (lock_eqb_spec l l); congruence).
  assert (AJ : j <> a).
  { intros <-. unfold step in H. rewrite U in H. cbv zeta in H. rewrite CU in H.
    assert (E : existsb (fun u => holds_excl l u || waits_for l u) (s_threads s) = true).
    { apply existsb_exists. exists m. split; [eapply nth_error_In; exact M|]. unfold waits_for. rewrite W, CM, LL. apply orb_true_r. }
    rewrite E in H. discriminate. }
  destruct (step_thread reads a s s' i t H N) as (t' & N' & _ & SI). rewrite (SI AI) in N'.
  destruct (step_thread reads a s s' 0 m H M) as (m' & M' & _ & SM). rewrite (SM AM) in M'.
  destruct (step_thread reads a s s' j u H U) as (u' & U' & _ & SU). rewrite (SU AJ) in U'.
  repeat (split; [assumption|]). split; [exists t, c; auto|]. split; [exists m, cm; auto|]. exists u, cu. auto.
Qed.
Lemma queued_never : forall reads l i k s, queued reads l i (S k) s -> never reads s (fun s' => loop_done s' \/ answered s' k).
Proof.
  intros reads l i k s Q sched. revert s Q. induction sched as [|a r IH]; intros s Q s' H; cbn [run] in H.
  - injection H as <-. destruct Q as (_ & _ & _ & _ & _ & (m & cm & M & CM & _) & (u & cu & U & CU)). intros [(t & A & B)|(t & A & B)]; congruence.
  - destruct (step reads a s) as [s1|] eqn:E; [|discriminate]. exact (IH s1 (queued_step reads l i (S k) a s s1 Q E) s' H).
Qed.

(** ** Witnesses *)
Definition r0 : round := mkRound None [] 0 [] 0 false.
Definition rich : round := mkRound (Some (Some true, [[FetchOk; FetchFailed true]; [FetchFailed false]])) [true; false] 2
  [(2, [WithRrdp; RsyncOnly]); (0, [OtherHost; NoModule])] 2 true.
Definition nobody (_ : nat) : bool := false.
Definition everybody (_ : nat) : bool := true.

Definition about_b (s : state) (i : nat) (x : var) (write : bool) : bool :=
  match nth_error (s_threads s) i with
  | Some t => match t_code t with
              | Do (Wr y _) :: _ => write && var_eqb y x
              | Do (Rd y) :: _ => negb write && var_eqb y x
              | _ => false end
  | None => false end.
Lemma about_b_ok : forall s i x w, about_b s i x w = true -> about_to s i x w.
Proof.
  intros s i x w H. unfold about_b in H. destruct (nth_error (s_threads s) i) as [t|] eqn:N; [|discriminate].
  destruct (t_code t) as [|[o| |] c] eqn:C; try discriminate. destruct o as [| |y|y v|]; try discriminate; apply andb_true_iff in H; destruct H as (H1 & H2);
    (destruct (var_eqb_spec y x) as [->|]; [|discriminate]); exists t; [exists (Rd x), c|exists (Wr x v), c]; (split; [exact N|]; split; [exact C|]).
  - destruct w; [discriminate|reflexivity].
  - subst w. eauto.
Qed.
Lemma race_at : forall reads rs qs sched x i j w,
  match run reads sched (start rs qs) with Some s => negb (i =? j) && about_b s i x true && about_b s j x w | None => false end = true ->
  exists s, reached reads rs qs s /\ race x s.
Proof.
  intros reads rs qs sched x i j w H. destruct (run reads sched (start rs qs)) as [s|] eqn:R; [|discriminate].
  apply andb_true_iff in H. destruct H as (H & H3). apply andb_true_iff in H. destruct H as (H1 & H2). exists s. split; [exists sched; exact R|].
  exists i, j, w. split; [|split; now apply about_b_ok]. intros ->. rewrite Nat.eqb_refl in H1. discriminate.
Qed.

Theorem races : forall x, In x [XRoas; XCounts; XComputed; XDuration] -> exists rs qs s, reached everybody rs qs s /\ race x s.
Proof.
  intros x I. exists [r0], [GetInfo]. cbn [In] in I.
  assert (R : forall a b, match run everybody (repeat 0 a ++ repeat 1 b) (start [r0] [GetInfo]) with
    Some s => negb (0 =? 1) && about_b s 0 x true && about_b s 1 x false | None => false end = true -> exists s, reached everybody [r0] [GetInfo] s /\ race x s).
  { intros a b H. eapply race_at. exact H. }
  destruct I as [<-|[<-|[<-|[<-|[]]]]].
  - apply (R 19 3). vm_compute. reflexivity.
  - apply (R 11 4). vm_compute. reflexivity.
  - apply (R 12 5). vm_compute. reflexivity.
  - apply (R 21 6). vm_compute. reflexivity.
Qed.

Theorem age_of_another : exists rs s, reached everybody rs [GetRoas true] s /\ answered s 0 /\ has_read s 0 XComputed 2 /\ has_read s 0 XRoas 1.
Proof.
  exists [r0; r0]. destruct (run everybody (repeat 0 39 ++ repeat 1 5) (start [r0; r0] [GetRoas true])) as [s|] eqn:R; [|vm_compute in R; discriminate].
  exists s. split; [eexists; exact R|].
  assert (E : nth_error (s_threads s) 1 = Some (mkT Request [] [] false [(XRoas, 1); (XComputed, 2)])).
  { assert (X : option_map (fun s => nth_error (s_threads s) 1) (run everybody (repeat 0 39 ++ repeat 1 5) (start [r0; r0] [GetRoas true])) =
                Some (Some (mkT Request [] [] false [(XRoas, 1); (XComputed, 2)]))) by (vm_compute; reflexivity).
    rewrite R in X. cbn [option_map] in X. congruence. }
  split; [eexists; split; [exact E|reflexivity]|]. split; (eexists; split; [exact E|]); cbn; auto.
Qed.

Theorem others_wait : exists reads rs qs s k, nth_error qs k = Some (GetResources true) /\ reads (S k) = true /\
  (forall k', reads (S k') = false -> k' = 0) /\ reached reads rs qs s /\ never reads s (fun s' => loop_done s' \/ answered s' k).
Proof.
  exists (fun i => negb (i =? 1)), [r0], [GetResources true; GetResources true].
  set (sched := [1; 1] ++ repeat 0 14).
  destruct (run (fun i => negb (i =? 1)) sched (start [r0] [GetResources true; GetResources true])) as [s|] eqn:R; [|vm_compute in R; discriminate].
  exists s, 1. split; [reflexivity|]. split; [reflexivity|]. split.
  { intros k' E. destruct k'; [reflexivity|discriminate]. }
  split; [eexists; exact R|]. apply (queued_never _ LRes 1 1).
  assert (E : option_map (fun s => (nth_error (s_threads s) 1, option_map (fun t => (t_wait t, firstn 1 (t_code t))) (nth_error (s_threads s) 0), nth_error (s_threads s) 2))
      (run (fun i => negb (i =? 1)) sched (start [r0] [GetResources true; GetResources true])) =
    Some (Some (mkT Request [Do Send; Do (Unlock LRes)] [(LRes, false)] false [(XRes, 0)]), Some (true, [Do (Lock LRes true)]),
          Some (mkT Request (map Do (serve (GetResources true))) [] false []))) by (vm_compute; reflexivity).
  rewrite R in E. clear R. cbn [option_map] in E. injection E as E1 E2 E3. unfold queued.
  destruct (s_threads s) as [|m rest]; [discriminate E2|]. cbn [option_map] in E2. injection E2 as W C.
  destruct (t_code m) as [|a c] eqn:CM; [discriminate C|]. injection C as ->.
  split; [lia|]. split; [lia|]. split; [lia|]. split; [reflexivity|]. split; [eexists; eexists; split; [exact E1|split; reflexivity]|]. split.
  - exists m, c. split; [reflexivity|]. split; [exact CM|exact W].
  - eexists. eexists. split; [exact E3|reflexivity].
Qed.

(** A schedule that runs everything: the loop with rich rounds, and requests. *)
Fixpoint greedy (fuel : nat) (reads : nat -> bool) (n : nat) (s : state) : state :=
  match fuel with
  | O => s
  | S f => match find (fun i => match step reads i s with Some _ => true | None => false end) (seq 0 n) with
           | Some i => match step reads i s with Some s' => greedy f reads n s' | None => s end
           | None => s
           end
  end.
Lemma greedy_reached : forall fuel reads n s, exists sched, run reads sched s = Some (greedy fuel reads n s).
Proof.
  induction fuel as [|f IH]; intros reads n s; cbn [greedy]; [exists []; reflexivity|]. destruct (find _ _) as [i|]; [|exists []; reflexivity].
  destruct (step reads i s) as [s'|] eqn:E; [|exists []; reflexivity]. destruct (IH reads n s') as (sched & R). exists (i :: sched). cbn [run]. now rewrite E.
Qed.
Lemma done_b : forall s, match nth_error (s_threads s) 0 with Some t => finished t | None => false end = true -> loop_done s.
Proof.
  intros s H. unfold loop_done. destruct (nth_error (s_threads s) 0) as [t|]; [|discriminate]. exists t. split; [reflexivity|].
  unfold finished in H. destruct (t_code t); [reflexivity|discriminate].
Qed.
Example whole_run : exists s, reached everybody [rich; r0] [GetRoas true; GetInfo; GetResources true; GetHealth] s /\ loop_done s /\ s_store s XRoas = 2.
Proof.
  exists (greedy 400 everybody 12 (start [rich; r0] [GetRoas true; GetInfo; GetResources true; GetHealth])). split; [apply greedy_reached|].
  split; [apply done_b|]; vm_compute; reflexivity.
Qed.
