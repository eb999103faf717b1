(** Fetches bound to different hosts. *)
From Coq Require Import Lia String.
From Verif.Model Require Import Base Str Tal TalText Paths Validator Cache Rrdp CacheConc.
From Verif.Spec Require Import PathSpec CacheConcSpec.
From Verif.Proofs Require Import StrProofs PathProofs CacheProofs CacheThm CacheConcProofs CacheConcThm CacheConcWitness.

Lemma walk_from : forall A c n x, (exists q, walk (A ++ c :: n) x = A ++ c :: q) \/ (n = [] /\ walk (A ++ c :: n) x = A).
Proof.
  intros A c n x. unfold walk. destruct (beq x [] || beq x dot); [left; now exists n|].
  destruct (beq x dotdot).
  - rewrite removelast_app by discriminate. destruct n as [|m n].
    + right. split; [reflexivity|]. apply app_nil_r.
    + left. exists (removelast (m :: n)). reflexivity.
  - left. exists (n ++ [x]). rewrite <- app_assoc. reflexivity.
Qed.

Lemma carries_place : forall cwd base h e l d, base <> [] -> name h -> carries cwd base (domain_of h) e l d ->
  l = resolve cwd base \/ (exists r, l = resolve cwd base ++ h :: r) \/
  exists a y b, l = resolve cwd base ++ a ++ (y ++ str "rsync:") :: b.
Proof.
  intros cwd base h e l d Hb Hh (f & Ee & C & Bp & -> & _). rewrite Ee in C.
  rewrite resolve_join by exact Hb. set (B := resolve cwd base).
  destruct (split_last f) as (ds & x & Ef & _).
  assert (Nd : ~ In dotdot ds) by (eapply good_dirs; eauto).
  rewrite Ef, fold_walk_app, (walk_down ds B Nd). cbn [fold_left].
  apply contains_spec in C. destruct C as (a & b & Ea). unfold domain_of in Ea. rewrite <- !app_assoc in Ea.
  assert (Nh : split_on slash h = [h]) by (apply split_single; apply Hh).
  assert (Ph : plain_comp h = true) by (apply name_plain; exact Hh).
  destruct (scheme_position _ _ _ Ea) as [->|(a' & -> & Ea')].
  - cbn [app] in Ea. apply app_inv_head in Ea. cbn [app] in Ea. rewrite Ea, split_app_sep, Nh in Ef.
    destruct (split_last b) as (db & cb & Eb & _). rewrite Eb in Ef. cbn [app] in Ef.
    destruct ds as [|d0 ds]; cbn [app] in Ef; [injection Ef as _ Ef; destruct db; discriminate|].
    injection Ef as <- Ef. apply app_inj_tail in Ef. destruct Ef as [-> ->].
    unfold names_of. cbn [filter]. rewrite Ph.
    destruct (walk_from B h (filter plain_comp ds) x) as [(q & ->)|(_ & ->)]; [right; left; now exists q|now left].
  - right. right. cbn [app] in Ea'.
    assert (Ef' : f = (a' ++ str "rsync:") ++ slash :: ([] ++ slash :: (h ++ slash :: b))) by (rewrite Ea', <- app_assoc; reflexivity).
    rewrite Ef', !split_app_sep, Nh in Ef.
    destruct (split_app_nosep a' (str "rsync:")) as (p & y & Ep); [cbn; unfold slash; lia|].
    rewrite Ep in Ef. cbn [split_on app] in Ef. rewrite <- !app_assoc in Ef. cbn [app] in Ef.
    destruct (split_last b) as (db & cb & Eb & _). rewrite Eb in Ef.
    symmetry in Ef. apply app_last_inj with (c := (y ++ str "rsync:") :: [] :: h :: db) in Ef. destruct Ef as [<- ->].
    unfold names_of. rewrite filter_app. cbn [filter]. rewrite Ph.
    assert (Py : plain_comp (y ++ str "rsync:") = true).
    { unfold plain_comp. apply negb_true_iff. destruct y as [|y0 [|y1 [|y2 y]]]; cbn; rewrite ?andb_false_r; reflexivity. }
    rewrite Py. change (plain_comp []) with false. cbv iota.
    rewrite (app_assoc B). destruct (walk_from (B ++ filter plain_comp p) (y ++ str "rsync:") (h :: filter plain_comp db) x) as [(q & W)|(K & _)]; [|discriminate K].
    exists (filter plain_comp p), y, q. etransitivity; [exact W|]. now rewrite <- app_assoc.
Qed.

Lemma hosts_apart : forall cwd base h h' r e d, base <> [] -> name h' -> h' <> h ->
  (forall y, ~ In (y ++ str "rsync:") (h :: r)) -> ~ carries cwd base (domain_of h') e (resolve cwd base ++ h :: r) d.
Proof.
  intros cwd base h h' r e d Hb Hh N R C. destruct (carries_place _ _ _ _ _ _ Hb Hh C) as [E|[(q & E)|(a & y & b & E)]].
  - rewrite <- (app_nil_r (resolve cwd base)) in E at 2. apply app_inv_head in E. discriminate E.
  - apply app_inv_head in E. injection E as E _. congruence.
  - apply app_inv_head in E. apply (R y). rewrite E. apply in_or_app. right. now left.
Qed.

Theorem hosts : forall cwd base h r a es b, base <> [] ->
  (forall dom' es', In (dom', es') (a ++ b) -> exists h', name h' /\ h' <> h /\ dom' = domain_of h') ->
  (forall y, ~ In (y ++ str "rsync:") (h :: r)) ->
  forall sched s x, snd (conc_run (jobs_of cwd base (a ++ (domain_of h, es) :: b)) sched s) (resolve cwd base ++ h :: r) = Some (File x) ->
  s (resolve cwd base ++ h :: r) = Some (File x) \/
  exists e d, In e es /\ carries cwd base (domain_of h) e (resolve cwd base ++ h :: r) d /\
    (x = d \/ (being_written (fst (conc_run (jobs_of cwd base (a ++ (domain_of h, es) :: b)) sched s)) (resolve cwd base ++ h :: r) /\ exists k, x = firstn k d)).
Proof.
  intros cwd base h r a es b Hb O R. apply moments. intros dom' es' e' d' I _ C. destruct (O _ _ I) as (h' & Hh & N & ->).
  exact (hosts_apart _ _ _ _ _ _ _ Hb Hh N R C).
Qed.

Theorem hosts_end : forall cwd base h r a es1 e es2 b d, base <> [] ->
  (forall dom' es', In (dom', es') (a ++ b) -> exists h', name h' /\ h' <> h /\ dom' = domain_of h') ->
  (forall y, ~ In (y ++ str "rsync:") (h :: r)) ->
  ~ (e_withdraw e = true /\ e_snapshot e = false) -> carries cwd base (domain_of h) e (resolve cwd base ++ h :: r) d ->
  (forall e' d', In e' es2 -> ~ carries cwd base (domain_of h) e' (resolve cwd base ++ h :: r) d') ->
  forall sched s, all_done (fst (conc_run (jobs_of cwd base (a ++ (domain_of h, es1 ++ e :: es2) :: b)) sched s)) ->
  snd (conc_run (jobs_of cwd base (a ++ (domain_of h, es1 ++ e :: es2) :: b)) sched s) (resolve cwd base ++ h :: r) = Some (File d).
Proof.
  intros cwd base h r a es1 e es2 b d Hb O R N C L sched s A. eapply delivered_last; [exact A|exact (not_ignored e N)|exact C|exact L|].
  intros dom' es' e' d' I _ C'. destruct (O _ _ I) as (h' & Hh & N' & ->). exact (hosts_apart _ _ _ _ _ _ _ Hb Hh N' R C').
Qed.
