(** The loop goes on only when the workers have ended. *)
From Coq Require Import Lia.
From Verif.Model Require Import Base Shared.
From Verif.Spec Require Import SharedSpec.
From Verif.Proofs Require Import SharedProofs.
Open Scope nat_scope.

Definition later (x : var) : bool := match x with XFetch | XDomain | XJobs | XRrdp => false | _ => true end.
Definition quiet_op (o : op) : bool := match o with Rd x | Wr x _ => negb (later x) | _ => true end.
Definition idle (w : list op) : bool := match w with [] => true | _ => false end.
(** [flow busy c]: with workers running, if [busy], the code [c] waits for
    them before it comes to the later variables. *)
Fixpoint flow (busy : bool) (c : list act) : bool :=
  match c with
  | [] => true
  | Do o :: r => (negb busy || quiet_op o) && flow busy r
  | Fork ws :: r => flow (busy || negb (forallb idle ws)) r
  | Join :: r => flow false r
  end.

Lemma flow_do : forall l c, flow false (map Do l ++ c) = flow false c.
Proof. induction l as [|o l IH]; intros c; [reflexivity|]. cbn. apply IH. Qed.
Lemma flow_reading : forall b l x c, later x = false -> flow b (map Do (reading l x) ++ c) = flow b c.
Proof. intros b l x c H. cbn. rewrite H. cbn. now rewrite !orb_true_r. Qed.
Lemma flow_iteration : forall v r c, flow false (iteration v r ++ c) = flow false c.
Proof.
  intros v r c. unfold iteration. rewrite <- !app_assoc.
  assert (R : forall d, flow false (do_rrdp v r ++ d) = flow false d).
  { intros d. unfold do_rrdp. destruct (r_rrdp r) as [(file & jobs)|]; [|reflexivity].
    assert (Q : forall e, flow false ((Fork (map (flat_map (fetch_rrdp v)) jobs) :: map Do (reading LFetch XFetch) ++ [Join] ++ e) ++ d) = flow false (e ++ d)).
    { intros e. cbn [app flow]. rewrite <- !app_assoc. rewrite flow_reading by reflexivity. reflexivity. }
    rewrite <- app_assoc. destruct file as [[]|].
    - rewrite flow_do. refine (eq_trans (Q (map Do (reading LRrdp XRrdp))) _). apply flow_do.
    - refine (eq_trans (Q (map Do (reading LRrdp XRrdp))) _). apply flow_do.
    - exact (Q []). }
  rewrite R, flow_do. unfold main_rsync. cbn [app flow].
  replace (forallb idle (repeat [] (r_rsync r))) with true by (symmetry; induction (r_rsync r); [reflexivity|assumption]).
  cbn [negb orb]. rewrite <- !app_assoc. rewrite flow_reading by reflexivity. cbn [app flow].
  rewrite !flow_do. destruct (r_stable r); reflexivity.
Qed.
Lemma flow_loop : forall rs v, flow false (main_loop v rs) = true.
Proof. induction rs as [|r rs IH]; intros v; [reflexivity|]. cbn [main_loop]. rewrite flow_iteration. apply IH. Qed.

Definition plain_code (c : list act) : Prop := Forall (fun a => exists o, a = Do o) c.
Definition calm (s : state) : Prop := forall i t, nth_error (s_threads s) i = Some t -> t_kind t = Worker -> t_code t = [].
Definition winv (s : state) : Prop :=
  (exists t, nth_error (s_threads s) 0 = Some t /\ t_kind t = Main /\ ((calm s /\ flow false (t_code t) = true) \/ flow true (t_code t) = true)) /\
  forall i t, nth_error (s_threads s) (S i) = Some t -> plain_code (t_code t) /\ t_kind t <> Main.

Lemma plain_map : forall l, plain_code (map Do l).
Proof. intros l. apply Forall_forall. intros a A. apply in_map_iff in A as (o & <- & _). eauto. Qed.

(** A step of one thread to the code [c], without new threads. *)
Lemma winv_update : forall s i t c h w seen st, winv s -> nth_error (s_threads s) i = Some t -> t_code t <> [] ->
  (i <> 0 -> plain_code c) ->
  (i = 0 -> (calm s /\ flow false (t_code t) = true) \/ flow true (t_code t) = true -> (calm s /\ flow false c = true) \/ flow true c = true) ->
  winv (mkS (update i (mkT (t_kind t) c h w seen) (s_threads s)) st).
Proof.
  intros s i t c h w seen st ((t0 & T0 & K0 & F0) & O) E NE P Q.
  assert (C : calm s -> calm (mkS (update i (mkT (t_kind t) c h w seen) (s_threads s)) st)).
  { intros C j u J K. cbn [s_threads] in J. destruct (update_cases _ _ _ _ _ _ E J) as [(-> & ->)|(_ & J')]; [|exact (C _ _ J' K)].
    cbn [t_kind t_code] in *. destruct (NE (C _ _ E K)). }
  destruct i as [|i].
  - rewrite T0 in E. injection E as <-. split.
    + exists (mkT (t_kind t0) c h w seen). cbn [s_threads]. split; [exact (update_same _ _ _ _ T0)|]. split; [exact K0|].
      cbn [t_code]. destruct (Q eq_refl F0) as [(A & B)|A]; [left; auto|now right].
    + intros j u J. cbn [s_threads] in J. rewrite update_other in J by discriminate. exact (O _ _ J).
  - split.
    + exists t0. cbn [s_threads]. rewrite update_other by discriminate. split; [exact T0|]. split; [exact K0|]. destruct F0 as [(A & B)|A]; [left; auto|now right].
    + intros j u J. cbn [s_threads] in J. destruct (update_cases _ _ _ _ _ _ E J) as [(_ & ->)|(_ & J')]; [|exact (O _ _ J')].
      cbn [t_code t_kind]. split; [apply P; discriminate|]. exact (proj2 (O _ _ E)).
Qed.

Lemma winv_step : forall reads i s s', winv s -> step reads i s = Some s' -> winv s'.
Proof.
  intros reads i s s' W H. unfold step in H. destruct (nth_error (s_threads s) i) as [t|] eqn:E; [|discriminate]. cbv zeta in H.
  destruct (t_code t) as [|a c] eqn:C; [discriminate|].
  assert (PO : i <> 0 -> plain_code (a :: c)).
  { intros N. destruct i as [|i]; [congruence|]. rewrite <- C. exact (proj1 (proj2 W i t E)). }
  assert (G : forall o h w seen st, a = Do o -> winv (mkS (update i (mkT (t_kind t) c h w seen) (s_threads s)) st)).
  { intros o h w seen st ->. apply winv_update; [exact W|exact E|congruence| |].
    - intros N. specialize (PO N). now inversion PO.
    - intros _. rewrite C. cbn [flow negb orb]. intros [(A & B)|A]; [left; auto|right]. now apply andb_true_iff in A as (_ & A). }
  assert (G0 : forall h w seen st, winv (mkS (update i (mkT (t_kind t) (a :: c) h w seen) (s_threads s)) st)).
  { intros h w seen st. apply winv_update; [exact W|exact E|congruence|exact PO|]. intros _. now rewrite C. }
  destruct a as [o|ws|].
  - destruct o as [l []|l|x|x v|].
    + destruct (t_wait t); [destruct (existsb _ _); [discriminate|]|]; injection H as <-; [eapply G; reflexivity|apply G0].
    + destruct (existsb _ _); [discriminate|]; injection H as <-; eapply G; reflexivity.
    + destruct (holds l t); [|discriminate]; injection H as <-; eapply G; reflexivity.
    + injection H as <-; eapply G; reflexivity.
    + injection H as <-; eapply G; reflexivity.
    + destruct (reads i); [|discriminate]; injection H as <-; eapply G; reflexivity.
  - (* Fork *)
    destruct i as [|i]; [|specialize (PO ltac:(discriminate)); inversion PO as [|? ? (o & X)]; discriminate X].
    injection H as <-. destruct W as ((t0 & T0 & K0 & F0) & O). rewrite T0 in E. injection E as ->. rewrite C in F0. cbn [flow] in F0.
    set (l' := update 0 (mkT (t_kind t) c (t_held t) false (t_seen t)) (s_threads s)). assert (L0 : nth_error l' 0 = Some (mkT (t_kind t) c (t_held t) false (t_seen t))) by (eapply update_same, T0).
    assert (NW : forall j u, nth_error (l' ++ map (fun w => mkT Worker (map Do w) [] false []) ws) (S j) = Some u ->
       nth_error (s_threads s) (S j) = Some u \/ exists w, In w ws /\ u = mkT Worker (map Do w) [] false []).
    { intros j u J. destruct (Nat.lt_ge_cases (S j) (length l')) as [B|B].
      - rewrite nth_error_app1 in J by exact B. unfold l' in J. rewrite update_other in J by discriminate. now left.
      - rewrite nth_error_app2 in J by exact B. apply nth_error_In, in_map_iff in J as (w & <- & I). right. eauto. }
    assert (N0 : nth_error (l' ++ map (fun w => mkT Worker (map Do w) [] false []) ws) 0 = Some (mkT (t_kind t) c (t_held t) false (t_seen t))).
    { rewrite nth_error_app1; [exact L0|]. apply nth_error_Some. congruence. }
    split.
    + eexists. cbn [s_threads]. split; [exact N0|]. split; [exact K0|]. cbn [t_code]. destruct F0 as [(A & B)|A]; [|right; exact A].
      cbn [orb] in B. destruct (forallb idle ws) eqn:I; [left|right; exact B]. split; [|exact B].
      intros [|j] u J KU; cbn [s_threads] in J; [assert (X := eq_trans (eq_sym J) N0); injection X as ->; cbn [t_kind] in KU; congruence|].
      destruct (NW _ _ J) as [J'|(w & IW & ->)]; [exact (A _ _ J' KU)|]. rewrite forallb_forall in I. specialize (I w IW). destruct w; [reflexivity|discriminate I].
    + intros j u J. cbn [s_threads] in J. destruct (NW _ _ J) as [J'|(w & _ & ->)]; [exact (O _ _ J')|]. cbn [t_code t_kind]. split; [apply plain_map|discriminate].
  - (* Join *)
    destruct (forallb _ _) eqn:FA; [|discriminate]. injection H as <-. apply winv_update; [exact W|exact E|congruence| |].
    + intros N. specialize (PO N). now inversion PO.
    + intros _ F. left. split; [|rewrite C in F; cbn [flow] in F; tauto].
      intros j u J KU. rewrite forallb_forall in FA. specialize (FA u (nth_error_In _ _ J)). unfold is_worker, finished in FA. rewrite KU in FA. destruct (t_code u); [reflexivity|discriminate FA].
Qed.
Lemma winv_run : forall reads sched s s', winv s -> run reads sched s = Some s' -> winv s'.
Proof.
  induction sched as [|i r IH]; intros s s' W H; cbn [run] in H; [now injection H as <-|].
  destruct (step reads i s) as [s1|] eqn:E; [|discriminate]. eapply IH; [eapply winv_step; eassumption|exact H].
Qed.
Lemma winv_start : forall rs qs, winv (start rs qs).
Proof.
  intros rs qs. unfold start. split.
  - eexists. split; [reflexivity|]. split; [reflexivity|]. left. split; [|apply flow_loop].
    intros [|i] t J K; cbn in J; [injection J as <-; discriminate K|]. apply nth_error_In, in_map_iff in J as (q & <- & _). discriminate K.
  - intros i t J. cbn in J. apply nth_error_In, in_map_iff in J as (q & <- & _). cbn [t_code t_kind]. split; [apply plain_map|discriminate].
Qed.

Theorem waits : forall reads rs qs s x w, In x [XTals; XCurrent; XPrev; XInfo; XRes; XRoas; XComputed; XCounts; XDuration] ->
  reached reads rs qs s -> about_to s 0 x w ->
  forall i t, nth_error (s_threads s) i = Some t -> t_kind t = Worker -> t_code t = [].
Proof.
  intros reads rs qs s x w X (sched & R) (t & o & c & T & C & O).
  assert (W := winv_run _ _ _ _ (winv_start rs qs) R). destruct W as ((t0 & T0 & _ & [(A & _)|F]) & _); [exact A|].
  rewrite T0 in T. injection T as ->. rewrite C in F. cbn [flow negb orb] in F. apply andb_true_iff in F as (F & _).
  assert (L : later x = true) by (repeat (destruct X as [<-|X]; [reflexivity|]); destruct X).
  destruct w; [destruct O as (v & ->)|subst o]; cbn [quiet_op] in F; rewrite L in F; discriminate F.
Qed.
