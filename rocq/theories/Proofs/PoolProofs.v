(** The worker pool and the RRDP round. *)
From Coq Require Import Lia Permutation.
From Verif.Spec Require Import PoolSpec.
From Verif.Model Require Import Base Str Pool.
From Verif.Proofs Require Import StrProofs.

Definition gone {Job Loc} (w : worker Job Loc) : bool := match w with Gone => true | _ => false end.
Definition alive {Job Loc} (ws : list (worker Job Loc)) : list (worker Job Loc) := filter (fun w => negb (gone w)) ws.

Section Pool.
Variables Job Loc St : Type.
Variable begin : Job -> Loc.
Variable work : Job -> Loc -> St -> option Loc -> St -> Prop.
Notation pstep := (pstep Job Loc St begin work).
Notation psteps := (psteps Job Loc St begin work).
Notation start := (pool_start Job Loc St).

Record pinv (n : nat) (jobs : list Job) (s : pool Job Loc St) : Prop := {
  i_len : length (p_workers s) = n;
  i_wg : p_wg s = Z.of_nat (length (alive (p_workers s)));
  i_jobs : Permutation (rest (p_main s) ++ inside (p_workers s) ++ p_done s) jobs;
  i_open : forall l, p_main s = Sending l -> Forall (fun w => gone w = false) (p_workers s);
  i_ret : p_main s = Returned -> p_wg s = 0 }.

Lemma inside_app : forall (a b : list (worker Job Loc)), inside (a ++ b) = inside a ++ inside b.
Proof. intros. unfold inside. apply flat_map_app. Qed.

Lemma alive_app : forall (a b : list (worker Job Loc)), alive (a ++ b) = alive a ++ alive b.
Proof. intros. unfold alive. apply filter_app. Qed.

Lemma pinv_start : forall n jobs st, pinv n jobs (start n jobs st).
Proof.
  intros n jobs st. unfold pool_start.
  assert (A : alive (repeat (@Idle Job Loc) n) = repeat Idle n).
  { clear. induction n as [|n IH]; [reflexivity|]. cbn [repeat alive filter gone negb]. f_equal. exact IH. }
  assert (B : inside (repeat (@Idle Job Loc) n) = []).
  { clear. induction n as [|n IH]; [reflexivity|]. exact IH. }
  constructor; cbn [p_workers p_main p_wg p_done rest].
  - apply repeat_length.
  - rewrite A, repeat_length. reflexivity.
  - rewrite B. cbn [app]. rewrite app_nil_r. apply Permutation_refl.
  - intros l _. apply Forall_forall. intros w H. apply repeat_spec in H. subst w. reflexivity.
  - discriminate.
Qed.

Lemma replace_worker : forall a b (w w' : worker Job Loc), gone w = gone w' ->
  length (alive (a ++ w :: b)) = length (alive (a ++ w' :: b)).
Proof.
  intros. rewrite !alive_app, !app_length. unfold alive. cbn [filter]. rewrite H.
  destruct (gone w'); reflexivity.
Qed.

Lemma all_present : forall a b (w w' : worker Job Loc), gone w' = false ->
  Forall (fun w => gone w = false) (a ++ w :: b) -> Forall (fun w => gone w = false) (a ++ w' :: b).
Proof.
  intros a b w w' G H. apply Forall_app in H. destruct H as [Ha Hb]. inversion Hb; subst.
  apply Forall_app. split; [exact Ha|constructor; assumption].
Qed.

Lemma pinv_step : forall n jobs s s', pinv n jobs s -> pstep s s' -> pinv n jobs s'.
Proof.
  intros n jobs s s' [L W J O R] H. destruct H; cbn [p_workers p_main p_wg p_done rest] in *.
  - constructor; cbn [p_workers p_main p_wg p_done rest]; try discriminate.
    + rewrite <- L, !app_length. reflexivity.
    + rewrite W. f_equal. apply replace_worker. reflexivity.
    + rewrite <- J. rewrite !inside_app. cbn [inside flat_map current app]. rewrite <- !app_assoc. cbn [app].
      rewrite <- Permutation_middle, <- Permutation_middle. reflexivity.
    + intros l _. eapply all_present; [reflexivity|eapply O; reflexivity].
  - constructor; cbn [p_workers p_main p_wg p_done rest].
    + rewrite <- L, !app_length. reflexivity.
    + rewrite W. f_equal. apply replace_worker. reflexivity.
    + rewrite <- J. rewrite !inside_app. cbn [inside flat_map current app]. reflexivity.
    + intros l E. eapply all_present; [reflexivity|eapply O; exact E].
    + exact R.
  - constructor; cbn [p_workers p_main p_wg p_done rest].
    + rewrite <- L, !app_length. reflexivity.
    + rewrite W. f_equal. apply replace_worker. reflexivity.
    + rewrite <- J. rewrite !inside_app. cbn [inside flat_map current app]. rewrite <- !app_assoc. cbn [app].
      apply Permutation_app_head, Permutation_app_head. fold (@inside Job Loc b).
      rewrite Permutation_app_comm. rewrite <- app_assoc. cbn [app]. rewrite (Permutation_app_comm dn).
      reflexivity.
    + intros l E. eapply all_present; [reflexivity|eapply O; exact E].
    + exact R.
  - constructor; cbn [p_workers p_main p_wg p_done rest]; try assumption; try discriminate.
  - constructor; cbn [p_workers p_main p_wg p_done rest]; try discriminate.
    + rewrite <- L, !app_length. reflexivity.
    + rewrite W, !alive_app, !app_length. unfold alive. cbn [filter gone negb length]. lia.
    + rewrite <- J, !inside_app. reflexivity.
  - constructor; cbn [p_workers p_main p_wg p_done rest]; try assumption; try discriminate. reflexivity.
Qed.

Lemma pinv_steps : forall n jobs st s, psteps (start n jobs st) s -> pinv n jobs s.
Proof.
  intros n jobs st s H. remember (start n jobs st) as s0 eqn:E. induction H; subst; [apply pinv_start|].
  eapply pinv_step; eauto.
Qed.

Lemma none_alive : forall ws : list (worker Job Loc), Z.of_nat (length (alive ws)) = 0 ->
  inside ws = [] /\ Forall (fun w => w = Gone) ws.
Proof.
  induction ws as [|w ws IH]; intros H; [split; [reflexivity|constructor]|].
  unfold alive in *. cbn [filter] in H. destruct w; cbn [gone negb] in H; try (cbn [length] in H; lia).
  destruct (IH H) as [A B]. split; [exact A|constructor; [reflexivity|exact B]].
Qed.

(** When the pool returns every job has been completed once. *)
Theorem pool_all : forall n jobs st s, psteps (start n jobs st) s -> p_main s = Returned ->
  Permutation (p_done s) jobs /\ Forall (fun w => w = Gone) (p_workers s).
Proof.
  intros n jobs st s H E. apply pinv_steps in H. destruct H as [L W J O R].
  specialize (R E). rewrite R in W. symmetry in W. apply none_alive in W. destruct W as [A B].
  split; [|exact B]. rewrite E, A in J. exact J.
Qed.

(** No job is worked on twice, at any time. *)
Theorem pool_once : forall n jobs st s, psteps (start n jobs st) s ->
  Permutation (rest (p_main s) ++ inside (p_workers s) ++ p_done s) jobs.
Proof. intros n jobs st s H. apply pinv_steps in H. apply H. Qed.

Section Live.
Variable rank : Loc -> nat.
Hypothesis Hrank : forall j x st x' st', work j x st (Some x') st' -> (rank x' < rank x)%nat.
Hypothesis Htotal : forall j x st, exists o st', work j x st o st'.

Lemma find_worker : forall ws : list (worker Job Loc),
  (exists a b, ws = a ++ Idle :: b) \/ (exists a j x b, ws = a ++ Busy j x :: b) \/ Forall (fun w => w = Gone) ws.
Proof.
  induction ws as [|w ws IH]; [right; right; constructor|]. destruct w.
  - left. exists [], ws. reflexivity.
  - right. left. exists [], j, x, ws. reflexivity.
  - destruct IH as [(a & b & ->)|[(a & j & x & b & ->)|F]].
    + left. exists (Gone :: a), b. reflexivity.
    + right. left. exists (Gone :: a), j, x, b. reflexivity.
    + right. right. constructor; auto.
Qed.

Lemma gone_none : forall ws : list (worker Job Loc), Forall (fun w => w = Gone) ws -> alive ws = [].
Proof. induction 1 as [|w ws H F IH]; [reflexivity|]. subst w. exact IH. Qed.

Theorem pool_live : forall n jobs st s, (0 < n)%nat -> psteps (start n jobs st) s ->
  p_main s <> Returned -> exists s', pstep s s'.
Proof.
  intros n jobs st s Hn H N. apply pinv_steps in H. destruct H as [L W J O R].
  destruct s as [m ws wg st0 dn]. cbn [p_main p_workers p_wg p_done] in *.
  destruct (find_worker ws) as [(a & b & ->)|[(a & j & x & b & ->)|F]].
  - destruct m as [[|j js]| |]; [| | |congruence]; eexists; econstructor.
  - destruct (Htotal j x st0) as ([x'|] & st' & Hw).
    + eexists. eapply st_work. exact Hw.
    + eexists. eapply st_finish. exact Hw.
  - destruct m as [l| |]; [| |congruence].
    + specialize (O l eq_refl). destruct ws as [|w ws]; [cbn in L; lia|].
      inversion F; subst. inversion O; subst. discriminate.
    + rewrite (gone_none ws F) in W. cbn in W. subst wg. eexists. constructor.
Qed.

Definition wcost (w : worker Job Loc) : nat :=
  match w with Idle => 1 | Busy _ x => rank x + 2 | Gone => 0 end.
Definition mcost (m : feeder Job) : nat :=
  match m with Sending l => 2 + list_sum (map (fun j => rank (begin j) + 3)%nat l) | Waiting => 1 | Returned => 0 end.
Definition cost (s : pool Job Loc St) : nat := (mcost (p_main s) + list_sum (map wcost (p_workers s)))%nat.

Lemma pstep_cost : forall s s', pstep s s' -> (cost s' < cost s)%nat.
Proof.
  intros s s' H. destruct H; unfold cost; cbn [p_main p_workers mcost];
    rewrite ?map_app, ?list_sum_app; unfold list_sum; cbn [map fold_right wcost]; try lia.
  apply Hrank in H. lia.
Qed.

(** Every execution is finite. *)
Theorem pool_ends : forall s, Acc (fun b a => pstep a b) s.
Proof.
  intros s. remember (cost s) as c eqn:E. assert (H : (cost s <= c)%nat) by lia. clear E. revert s H.
  induction c as [|c IH]; intros s H; constructor; intros s' G; apply pstep_cost in G; [lia|].
  apply IH. lia.
Qed.
End Live.

(** Without workers nothing happens. *)
Theorem pool_stuck : forall j jobs st s, psteps (start 0 (j :: jobs) st) s -> s = start 0 (j :: jobs) st.
Proof.
  intros j jobs st s H. remember (start 0 (j :: jobs) st) as s0 eqn:E. induction H as [|s s1 s2 H IH G]; [reflexivity|].
  rewrite (IH E) in G. subst s. unfold pool_start in G. cbn [repeat] in G. inversion G; destruct a; discriminate.
Qed.
End Pool.

(** The RRDP round *)
Section Rrdp.
Variable failover : bool.
Variable fetched : bytes -> bytes -> Z -> rresult -> Prop.
Notation rstep := (pstep rjob rphase rshared (fun _ => RBegin) (rwork failover fetched)).
Notation rsteps := (psteps rjob rphase rshared (fun _ => RBegin) (rwork failover fetched)).
Notation rstart := (pool_start rjob rphase rshared).

(** The result takes the rsync job away. *)
Definition drops (r : rresult) : bool :=
  match r with ROk _ _ => true | RFail => negb failover | RTooLarge => true end.
Definition dropped (log : list (rjob * rresult)) (k : bytes) : bool :=
  existsb (fun e => beq k (snd (fst e)) && drops (snd e)) log.
Definition stores (log : list (rjob * rresult)) (k : bytes) : list (bytes * Z) :=
  flat_map (fun e => match snd e with ROk a b => if beq k (snd (fst e)) then [(a, b)] else [] | _ => [] end) log.

(** Fetches that have ended and have nothing more to do, and those that still
    have to store their result. *)
Definition settled (w : worker rjob rphase) : list rjob :=
  match w with Busy j (RStore _ _) => [j] | _ => [] end.

Record rinv (jobs0 : kmap bytes) (info0 : kmap (bytes * Z)) (s : pool rjob rphase rshared) : Prop := {
  ri_jobs : forall k, r_jobs (p_st s) k = if dropped (r_log (p_st s)) k then None else jobs0 k;
  ri_log : Permutation (map fst (r_log (p_st s))) (flat_map settled (p_workers s) ++ p_done s);
  ri_info : forall k, r_info (p_st s) k = info0 k \/
     exists v, r_info (p_st s) k = Some v /\ In v (stores (r_log (p_st s)) k);
  ri_store : forall j a b, In (Busy j (RStore a b)) (p_workers s) -> In (j, ROk a b) (r_log (p_st s)) }.

Lemma dropped_app : forall a b k, dropped (a ++ b) k = dropped a k || dropped b k.
Proof. intros. apply existsb_app. Qed.

Lemma stores_app : forall a b k, stores (a ++ b) k = stores a k ++ stores b k.
Proof. intros. apply flat_map_app. Qed.

Lemma settled_app : forall a b, flat_map settled (a ++ b) = flat_map settled a ++ flat_map settled b.
Proof. intros. apply flat_map_app. Qed.

Lemma rinv_start : forall n jobs j0 i0, rinv j0 i0 (rstart n jobs (mkRShared j0 i0 [])).
Proof.
  intros. constructor; cbn [p_st r_jobs r_log r_info p_workers p_done pool_start dropped existsb map].
  - reflexivity.
  - unfold pool_start. cbn [p_workers p_done]. rewrite app_nil_r. induction n; [constructor|assumption].
  - auto.
  - intros j a b H. unfold pool_start in H. cbn [p_workers] in H. apply repeat_spec in H. discriminate.
Qed.

Lemma settled_move : forall a b w w', settled w = settled w' ->
  flat_map settled (a ++ w :: b) = flat_map settled (a ++ w' :: b).
Proof. intros. rewrite !settled_app. cbn [flat_map]. rewrite H. reflexivity. Qed.

Lemma store_kept : forall a b w w' (P : rjob -> bytes -> Z -> Prop),
  (forall j x y, w' <> Busy j (RStore x y)) ->
  (forall j x y, In (Busy j (RStore x y)) (a ++ w :: b) -> P j x y) ->
  forall j x y, In (Busy j (RStore x y)) (a ++ w' :: b) -> P j x y.
Proof.
  intros a b w w' P N H j x y I. apply H. apply in_app_or in I. apply in_or_app.
  destruct I as [I|[I|I]]; [left; exact I|destruct (N _ _ _ I)|right; right; exact I].
Qed.

Lemma rinv_step : forall j0 i0 s s', rinv j0 i0 s -> rstep s s' -> rinv j0 i0 s'.
Proof.
  intros j0 i0 s s' [J L I T] H.
  destruct H as [j js a b wg st dn|m a j x x' b wg st st' dn Hw|m a j x b wg st st' dn Hw|ws wg st dn|a b wg st dn|ws st dn];
    cbn [p_st p_workers p_done] in *.
  - constructor; cbn [p_st p_workers p_done]; auto.
    + rewrite L. erewrite settled_move; [reflexivity|reflexivity].
    + eapply store_kept; [|exact T]. discriminate.
  - inversion Hw; subst.
    + constructor; cbn [p_st p_workers p_done]; auto.
      * rewrite L. erewrite settled_move; [reflexivity|reflexivity].
      * eapply store_kept; [|exact T]. discriminate.
    + constructor; cbn [p_st p_workers p_done r_jobs r_info r_log].
      * intros k. rewrite dropped_app. unfold kdel. cbn [dropped existsb fst snd drops].
        rewrite orb_false_r, andb_true_r. destruct (beq k (snd j)); [rewrite orb_true_r; reflexivity|].
        rewrite orb_false_r. apply J.
      * rewrite map_app. cbn [map fst]. rewrite settled_app. cbn [flat_map settled app].
        rewrite settled_app in L. cbn [flat_map settled app] in L. rewrite <- app_assoc. cbn [app].
        etransitivity; [apply Permutation_sym, Permutation_cons_append|].
        etransitivity; [|apply Permutation_middle]. constructor. etransitivity; [exact L|]. rewrite <- app_assoc. reflexivity.
      * intros k. destruct (I k) as [G|(v & G & Gv)]; [left; exact G|right]. exists v. split; [exact G|].
        rewrite stores_app. apply in_or_app. left. exact Gv.
      * intros j1 u v Hin. apply in_app_or in Hin. apply in_or_app.
        destruct Hin as [Hin|[Hin|Hin]]; [left; apply T; apply in_or_app; auto| |left; apply T; apply in_or_app; right; right; exact Hin].
        injection Hin as <- <- <-. right. left. reflexivity.
  - inversion Hw; subst.
    + constructor; cbn [p_st p_workers p_done r_jobs r_info r_log].
      * intros k. rewrite dropped_app. unfold kdel. cbn [dropped existsb fst snd drops].
        rewrite orb_false_r. destruct failover; cbn [negb].
        -- rewrite andb_false_r, orb_false_r. apply J.
        -- rewrite andb_true_r. destruct (beq k (snd j)); [rewrite orb_true_r; reflexivity|]. rewrite orb_false_r. apply J.
      * rewrite map_app. cbn [map fst]. rewrite settled_app in *. cbn [flat_map settled app] in *.
        rewrite app_assoc. apply Permutation_app_tail. exact L.
      * intros k. destruct (I k) as [G|(v & G & Gv)]; [left; exact G|right]. exists v. split; [exact G|].
        rewrite stores_app. apply in_or_app. left. exact Gv.
      * eapply store_kept; [discriminate|]. intros j1 u v Hin. apply in_or_app. left. apply T. exact Hin.
    + constructor; cbn [p_st p_workers p_done r_jobs r_info r_log].
      * intros k. rewrite dropped_app. unfold kdel. cbn [dropped existsb fst snd drops].
        rewrite orb_false_r, andb_true_r. destruct (beq k (snd j)); [rewrite orb_true_r; reflexivity|].
        rewrite orb_false_r. apply J.
      * rewrite map_app. cbn [map fst]. rewrite settled_app in *. cbn [flat_map settled app] in *.
        rewrite app_assoc. apply Permutation_app_tail. exact L.
      * intros k. destruct (I k) as [G|(v & G & Gv)]; [left; exact G|right]. exists v. split; [exact G|].
        rewrite stores_app. apply in_or_app. left. exact Gv.
      * eapply store_kept; [discriminate|]. intros j1 u v Hin. apply in_or_app. left. apply T. exact Hin.
    + constructor; cbn [p_st p_workers p_done r_jobs r_info r_log].
      * exact J.
      * rewrite L. rewrite settled_app in *. cbn [flat_map settled app] in *. rewrite settled_app. cbn [flat_map settled app].
        rewrite <- !app_assoc. cbn [app]. apply Permutation_app_head.
        rewrite (Permutation_app_comm (flat_map settled b) (dn ++ [j])), <- app_assoc. cbn [app].
        rewrite <- Permutation_middle. constructor. apply Permutation_app_comm.
      * intros k. unfold kset. destruct (beq k (snd j)) eqn:E.
        -- right. exists (a0, b0). split; [reflexivity|].
           assert (G : In (j, ROk a0 b0) (r_log st)) by (apply T; apply in_or_app; right; left; reflexivity).
           unfold stores. apply in_flat_map. exists (j, ROk a0 b0). split; [exact G|]. cbn [fst snd]. rewrite E. left. reflexivity.
        -- destruct (I k) as [G|(v & G & Gv)]; [left; exact G|right]. exists v. auto.
      * eapply store_kept; [discriminate|exact T].
  - constructor; auto.
  - constructor; cbn [p_st p_workers p_done]; auto.
    + rewrite L. erewrite settled_move; [reflexivity|reflexivity].
    + eapply store_kept; [|exact T]. discriminate.
  - constructor; auto.
Qed.

Lemma rinv_steps : forall n jobs j0 i0 s, rsteps (rstart n jobs (mkRShared j0 i0 [])) s -> rinv j0 i0 s.
Proof.
  intros n jobs j0 i0 s H. remember (rstart n jobs (mkRShared j0 i0 [])) as s0 eqn:E.
  induction H; subst; [apply rinv_start|]. eapply rinv_step; eauto.
Qed.

(** A successful fetch has its result stored or is about to store it. *)
Definition rafter (s : pool rjob rphase rshared) : Prop :=
  forall j a b, In (j, ROk a b) (r_log (p_st s)) ->
    In (Busy j (RStore a b)) (p_workers s) \/
    exists v, r_info (p_st s) (snd j) = Some v /\ In v (stores (r_log (p_st s)) (snd j)).

Lemma in_mid_other : forall A (a b : list A) w w' x, In x (a ++ w :: b) -> x <> w -> In x (a ++ w' :: b).
Proof.
  intros A a b w w' x H N. apply in_app_or in H. apply in_or_app.
  destruct H as [H|[H|H]]; [left; exact H|congruence|right; right; exact H].
Qed.

Lemma more_stores : forall l k v e, In v (stores l k) -> In v (stores (l ++ e) k).
Proof. intros. rewrite stores_app. apply in_or_app. left. exact H. Qed.

Lemma rgood_step : forall j0 i0 s s', rinv j0 i0 s -> rafter s -> rstep s s' -> rafter s'.
Proof.
  intros j0 i0 s s' [_ _ _ T] A H j1 u v.
  destruct H as [j js a b wg st dn|m a j x x' b wg st st' dn Hw|m a j x b wg st st' dn Hw|ws wg st dn|a b wg st dn|ws st dn];
    unfold rafter in A; cbn [p_st p_workers p_done] in *; intros Hin; [| | |apply A; exact Hin| |apply A; exact Hin].
  - destruct (A _ _ _ Hin) as [G|G]; [left|right; exact G]. eapply in_mid_other; [exact G|discriminate].
  - inversion Hw; subst; cbn [r_log r_info] in *.
    + destruct (A _ _ _ Hin) as [G|G]; [left|right; exact G]. eapply in_mid_other; [exact G|discriminate].
    + apply in_app_or in Hin. destruct Hin as [Hin|[Hin|[]]].
      * destruct (A _ _ _ Hin) as [G|(w & G & G')]; [left; eapply in_mid_other; [exact G|discriminate]|right].
        exists w. split; [exact G|apply more_stores; exact G'].
      * injection Hin as <- <- <-. left. apply in_or_app. right. left. reflexivity.
  - inversion Hw; subst; cbn [r_log r_info] in *.
    + apply in_app_or in Hin. destruct Hin as [Hin|[Hin|[]]]; [|discriminate].
      destruct (A _ _ _ Hin) as [G|(w & G & G')]; [left; eapply in_mid_other; [exact G|discriminate]|right].
      exists w. split; [exact G|apply more_stores; exact G'].
    + apply in_app_or in Hin. destruct Hin as [Hin|[Hin|[]]]; [|discriminate].
      destruct (A _ _ _ Hin) as [G|(w & G & G')]; [left; eapply in_mid_other; [exact G|discriminate]|right].
      exists w. split; [exact G|apply more_stores; exact G'].
    + unfold kset.
      assert (Q : In (j, ROk a0 b0) (r_log st)) by (apply T; apply in_or_app; right; left; reflexivity).
      assert (S : In (a0, b0) (stores (r_log st) (snd j))).
      { unfold stores. apply in_flat_map. exists (j, ROk a0 b0). split; [exact Q|]. cbn [fst snd].
        rewrite beq_refl. left. reflexivity. }
      destruct (beq (snd j1) (snd j)) eqn:E.
      * right. exists (a0, b0). split; [reflexivity|]. apply beq_eq in E. rewrite E. exact S.
      * destruct (A _ _ _ Hin) as [G|(w & G & G')].
        -- left. eapply in_mid_other; [exact G|]. intros K. injection K as -> _ _. rewrite beq_refl in E. discriminate.
        -- right. exists w. auto.
  - destruct (A _ _ _ Hin) as [G|G]; [left|right; exact G]. eapply in_mid_other; [exact G|discriminate].
Qed.

Lemma rafter_steps : forall n jobs j0 i0 s, rsteps (rstart n jobs (mkRShared j0 i0 [])) s -> rafter s.
Proof.
  intros n jobs j0 i0 s H. remember (rstart n jobs (mkRShared j0 i0 [])) as s0 eqn:E.
  induction H; subst; [intros j a b []|]. eapply rgood_step; eauto. eapply rinv_steps; eauto.
Qed.

(** The end of the round *)
Theorem round_jobs : forall n jobs j0 i0 s, rsteps (rstart n jobs (mkRShared j0 i0 [])) s -> p_main s = Returned ->
  Permutation (map fst (r_log (p_st s))) jobs /\
  forall k v, r_jobs (p_st s) k = Some v <->
    j0 k = Some v /\ forall p r, In ((p, k), r) (r_log (p_st s)) -> r = RFail /\ failover = true.
Proof.
  intros n jobs j0 i0 s H E. pose proof (rinv_steps _ _ _ _ _ H) as [J L I T].
  destruct (pool_all _ _ _ _ _ _ _ _ _ H E) as [D G]. split.
  - rewrite L, <- D. replace (flat_map settled (p_workers s)) with (@nil rjob); [reflexivity|].
    clear -G. induction G as [|w ws -> G IH]; [reflexivity|exact IH].
  - intros k v. rewrite J. destruct (dropped (r_log (p_st s)) k) eqn:X; unfold dropped in X.
    + split; [discriminate|]. intros [_ K]. exfalso. apply existsb_exists in X. destruct X as ([[p k'] r] & Hin & X).
      cbn [fst snd] in X. apply andb_true_iff in X. destruct X as [X1 X2]. apply beq_eq in X1. subst k'.
      destruct (K p r Hin) as [-> F]. cbn [drops] in X2. rewrite F in X2. discriminate.
    + split; [|intros [K _]; exact K]. intros K. split; [exact K|]. intros p r Hin.
      assert (Y : drops r = false).
      { destruct (drops r) eqn:Z; [|reflexivity]. exfalso.
        assert (W : existsb (fun e : rjob * rresult => beq k (snd (fst e)) && drops (snd e)) (r_log (p_st s)) = true).
        { apply existsb_exists. exists ((p, k), r). split; [exact Hin|]. cbn [fst snd]. rewrite beq_refl, Z. reflexivity. }
        pose proof (eq_trans (eq_sym W) X). discriminate. }
      destruct r; cbn [drops] in Y; try discriminate. destruct failover; [auto|discriminate].
Qed.

Theorem round_info : forall n jobs j0 i0 s, rsteps (rstart n jobs (mkRShared j0 i0 [])) s -> p_main s = Returned ->
  forall k, (r_info (p_st s) k = i0 k /\ forall p a b, ~ In ((p, k), ROk a b) (r_log (p_st s))) \/
            exists p a b, r_info (p_st s) k = Some (a, b) /\ In ((p, k), ROk a b) (r_log (p_st s)).
Proof.
  intros n jobs j0 i0 s H E k. pose proof (rinv_steps _ _ _ _ _ H) as [J L I T].
  pose proof (rafter_steps _ _ _ _ _ H) as A.
  destruct (pool_all _ _ _ _ _ _ _ _ _ H E) as [D G].
  assert (W : forall v, In v (stores (r_log (p_st s)) k) -> exists p, In ((p, k), ROk (fst v) (snd v)) (r_log (p_st s))).
  { intros v Hv. unfold stores in Hv. apply in_flat_map in Hv. destruct Hv as ([[p k'] r] & Hin & Hv). cbn [fst snd] in Hv.
    destruct r; try destruct Hv. destruct (beq k k') eqn:B; [|destruct Hv]. apply beq_eq in B. subst k'.
    destruct Hv as [<-|[]]. exists p. exact Hin. }
  destruct (stores (r_log (p_st s)) k) as [|v vs] eqn:Q.
  - left. destruct (I k) as [K|(v & _ & Kv)]; [|rewrite Q in Kv; destruct Kv]. split; [exact K|].
    intros p a b Hin. assert (F : In (a, b) (stores (r_log (p_st s)) k)).
    { unfold stores. apply in_flat_map. exists ((p, k), ROk a b). split; [exact Hin|]. cbn [fst snd]. rewrite beq_refl. left. reflexivity. }
    rewrite Q in F. destruct F.
  - right. destruct (W v (or_introl eq_refl)) as (p & Hin).
    destruct (A _ _ _ Hin) as [K|([a b] & K & Kv)].
    + exfalso. rewrite Forall_forall in G. apply G in K. discriminate.
    + cbn [snd] in K, Kv. rewrite Q in Kv. destruct (W (a, b) Kv) as (p' & Hin'). exists p', a, b. auto.
Qed.

(** It ends, whatever the order *)
Definition rrank (x : rphase) : nat := match x with RBegin => 2 | RFetch _ _ => 1 | RStore _ _ => 0 end.
Lemma rwork_rank : forall j x st x' st', rwork failover fetched j x st (Some x') st' -> (rrank x' < rrank x)%nat.
Proof. intros j x st x' st' H. inversion H; subst; cbn; lia. Qed.
Lemma rwork_total : (forall p a b, exists r, fetched p a b r) ->
  forall j x st, exists o st', rwork failover fetched j x st o st'.
Proof.
  intros F j x st. destruct x as [|a b|a b].
  - eexists. eexists. constructor.
  - destruct (F (fst j) a b) as ([a' b'| |] & Hr); eexists; eexists; econstructor; exact Hr.
  - eexists. eexists. constructor.
Qed.
End Rrdp.
