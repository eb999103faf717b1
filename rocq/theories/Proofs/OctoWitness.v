(** Runs of the main loop. *)
From Coq Require Import String Lia.
From Verif.Model Require Import Base Str Tal Paths Validator Cache Rrdp Pool Octo.
From Verif.Spec Require Import PathSpec RrdpSpec OctoSpec.
From Verif.Proofs Require Import StrProofs PathProofs CacheThm OctoProofs OctoLoop OctoDisk.

Lemma bound_module : forall failover fetched workers o p m,
  rounds failover fetched workers octo_empty o -> o_fetch o p = Some m ->
  exists h, o_domain o p = Some (domain_of h) /\ module_of h m.
Proof.
  intros failover fetched workers o p m H. apply (bindings failover fetched workers octo_empty o H).
  intros q k G. discriminate.
Qed.

Lemma override_ignored : forall sia o m d p prev,
  domain_module (odef [] (first_sia is_sia_repo sia)) = Some (m, d) ->
  first_sia is_sia_notify sia = Some p -> o_domain o p = Some prev -> prev <> d ->
  register sia o = o.
Proof.
  intros sia o m d p prev H1 H2 H3 N. unfold register. rewrite H1, H2, H3.
  destruct (beq prev d) eqn:E; [apply beq_eq in E; contradiction|reflexivity].
Qed.

Lemma run_inv : forall c l tr s, loop_run c l lstart = (tr, false, s) -> linv c l s.
Proof. intros c l tr s E. exact (linv_run c l lstart tr s [] (linv_start c) E). Qed.

Lemma declared_iff : forall c l tr s f tr' e s',
  loop_run c l lstart = (tr, false, s) -> loop_pass c f s = (tr', e, s') ->
  ((exists h, In (Obs true h) tr') <-> quiet l f \/ l_max c < (if l_active s then l_until s else 0) + 1) /\
  (l_hasprev s' = true <-> quiet l f).
Proof. intros c l tr s f tr' e s' E P. exact (pass_declared c f s l tr' e s' (run_inv _ _ _ _ E) P). Qed.

Lemma refused_again : forall c l tr s f tr' e s',
  loop_run c l lstart = (tr, false, s) -> loop_pass c f s = (tr', e, s') ->
  l_wait c = true -> l_hasprev s = true -> ~ quiet l f ->
  served c (l_stable s) (l_hasprev s) = true /\
  exists x y, In (Obs x y) tr' /\ served c x y = false.
Proof.
  intros c l tr s f tr' e s' E P W Hs Q. pose proof (run_inv _ _ _ _ E) as I.
  split; [unfold served; rewrite Hs; destruct (l_stable s), (l_wait c); reflexivity|].
  rewrite <- (stable1_spec c l s f I) in Q. apply not_true_iff_false in Q.
  exists false, false. split; [|unfold served; rewrite W; reflexivity].
  rewrite pass_eq in P. cbv zeta in P. rewrite Q in P.
  destruct (l_oneoff c && (forced c s || false)); [|destruct (forced c s || false)]; injection P as <- _ _;
  do 3 right; left; reflexivity.
Qed.

Lemma forced_lapses : forall c l tr s f tr' s',
  loop_run c l lstart = (tr, false, s) -> loop_pass c f s = (tr', false, s') ->
  l_wait c = true -> ~ quiet l f ->
  served c (l_stable s') (l_hasprev s') = false.
Proof.
  intros c l tr s f tr' s' E P W Q. pose proof (run_inv _ _ _ _ E) as I.
  pose proof (linv_pass _ _ _ _ _ _ I P) as I'.
  destruct (pass_declared c f s l tr' false s' I P) as [_ K].
  destruct I' as [_ _ S _ _ _ _]. rewrite S.
  destruct (l_hasprev s'); [destruct (Q (proj1 K eq_refl))|]. unfold served. rewrite W. reflexivity.
Qed.

Lemma loop_example :
  let c := mkLcfg true false 32 in
  let k := [[97]] in
  let run := loop_run c [k; k; [[98]]] lstart in
  observed (fst (fst run)) =
    [(false, false); (false, false); (false, false); (false, false);
     (false, false); (true, false); (true, true); (true, true); (false, true);
     (false, true); (false, true); (false, false); (false, false)] /\
  quiet [k] k /\ ~ quiet [k; k] [[98]].
Proof.
  cbv zeta. split; [vm_compute; reflexivity|]. split.
  - split; [discriminate|]. intros x [<-|[]]. exists [[97]]. cbn. auto.
  - intros [_ H]. destruct (H [98] (or_introl eq_refl)) as (f & [<-|[<-|[]]] & [G|[]]); discriminate.
Qed.

Lemma max_not_enough : forall max, exists l,
  Z.of_nat (length l) = Z.of_nat max /\ forall c tr e s, l_max c = Z.of_nat max ->
  loop_run c l lstart = (tr, e, s) -> e = false /\ forall h, ~ In (Obs true h) tr.
Proof.
  intros max. exists (news max). rewrite news_length. split; [reflexivity|].
  intros c tr e s M E. apply (restless c (news max) tr e s E (news_restless max)). rewrite news_length. lia.
Qed.

Lemma ends_without_output : forall max c, l_max c = Z.of_nat max -> l_oneoff c = true -> l_wait c = true ->
  exists tr s, loop_run c (news (S max)) lstart = (tr, true, s) /\ ~ In Output tr.
Proof.
  intros max c M O W. destruct (loop_run c (news (S max)) lstart) as [[tr e] s] eqn:E.
  assert (e = true).
  { apply (oneoff_ends _ _ _ _ _ E O); rewrite ?news_length; [|lia].
    intros G. pose proof (news_length (S max)) as L. rewrite G in L. discriminate. }
  subst e. exists tr, s. split; [reflexivity|]. intros G.
  destruct (oneoff_output _ _ _ _ E) as (_ & a & f & V & K). apply K in G. destruct G as [G|G]; [|congruence].
  apply run_passes in E. destruct (passes_validations _ _ _ _ _ _ E) as (r & R & _).
  rewrite V, app_assoc_reverse in R. exact (news_restless (S max) _ _ _ R G).
Qed.

Lemma whole_cache : forall cwd base h p, base <> [] -> name h ->
  o_jobs (register [(SiaRepo, domain_of h ++ dotdot ++ str "/"); (SiaNotify, p)] octo_empty) (domain_of h ++ dotdot) = Some p /\
  rsync_dest cwd base (domain_of h ++ dotdot) = Some (resolve cwd base).
Proof.
  intros cwd base h p Hb Hh. split; [|apply rsync_whole_cache; assumption].
  unfold register. cbn [first_sia is_sia_repo is_sia_notify odef].
  rewrite module_found by (apply Hh || (cbn; intuition discriminate)).
  cbn [o_domain octo_empty kempty o_jobs]. apply kset_same.
Qed.

Lemma outside_cache : forall cwd base m p, base <> [] -> name m ->
  o_jobs (register [(SiaRepo, domain_of dotdot ++ m ++ str "/"); (SiaNotify, p)] octo_empty) (domain_of dotdot ++ m) = Some p /\
  rsync_dest cwd base (domain_of dotdot ++ m) = Some (removelast (resolve cwd base) ++ [m]).
Proof.
  intros cwd base m p Hb Hm. split; [|apply rsync_outside; assumption].
  unfold register. cbn [first_sia is_sia_repo is_sia_notify odef].
  rewrite module_found by (apply Hm || (cbn; intuition discriminate)).
  cbn [o_domain octo_empty kempty o_jobs]. apply kset_same.
Qed.

Definition fs0 : fs := fun l => match l with [] => Some Dir | _ => None end.
