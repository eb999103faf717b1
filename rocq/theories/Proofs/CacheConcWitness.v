(** From operations to elements; concrete orders. *)
From Coq Require Import Lia String.
From Verif.Model Require Import Base Str Tal Paths Validator Cache Rrdp CacheConc.
From Verif.Spec Require Import RrdpSpec CacheConcSpec.
From Verif.Proofs Require Import StrProofs PathProofs CacheProofs RrdpCrash RrdpWitness CacheConcProofs CacheConcThm.

Lemma ops_carries : forall cwd base domain e l d,
  In (OFile l d) (callback_ops cwd base domain (e_path e) (e_data e)) <-> carries cwd base domain e l d.
Proof.
  intros cwd base domain e l d. unfold callback_ops, carries. destruct (contains (e_path e) domain) eqn:C; cbn [negb].
  - destruct (rsync_url_cases (e_path e)) as [(f & E)|N].
    + rewrite E. unfold write_ops, extract_folders, extract_file, is_rsync_url. rewrite has_prefix_app, trim_scheme. split.
      * intros H. apply in_app_or in H as [H|H]; [apply in_map_iff in H as (y & H & _); discriminate H|].
        destruct (bad_path f) eqn:B; destruct H as [H|[]]; [discriminate H|]. injection H as <- <-. exists f. auto.
      * intros (f' & E' & _ & B & -> & ->). apply app_inv_head in E'. subst f'. apply in_or_app. right. rewrite B. now left.
    + unfold write_ops, extract_folders. rewrite N. split; [intros [H|[]]; discriminate H|].
      intros (f & E & _). rewrite E in N. unfold is_rsync_url in N. rewrite has_prefix_app in N. discriminate N.
  - split; [intros []|intros (f & _ & X & _); discriminate X].
Qed.
Lemma job_carries : forall cwd base domain es g l d, In (g, OFile l d) (job_ops cwd base domain es) <->
  exists e, In e es /\ g = ignored e /\ carries cwd base domain e l d.
Proof.
  intros cwd base domain es g l d. unfold job_ops. rewrite in_flat_map. split.
  - intros (e & I & H). apply in_map_iff in H as (o & H & O). injection H as <- ->. exists e. split; [exact I|]. split; [reflexivity|]. now apply ops_carries.
  - intros (e & I & -> & C). exists e. split; [exact I|]. apply in_map. now apply ops_carries.
Qed.
Lemma fetches_write : forall cwd base fetches l d, writes (jobs_of cwd base fetches) l d <->
  exists dom es e, In (dom, es) fetches /\ In e es /\ carries cwd base dom e l d.
Proof.
  intros cwd base fetches l d. unfold writes, jobs_of. split.
  - intros (j & g & J & I). apply in_map_iff in J as ((dom & es) & <- & F). apply job_carries in I as (e & E & _ & C). exists dom, es, e. auto.
  - intros (dom & es & e & F & E & C). eexists _, _. split; [apply in_map_iff; exists (dom, es); split; [reflexivity|exact F]|]. apply job_carries. eauto.
Qed.
Lemma delivered_same : forall cwd base fetches sched s dom es e l d,
  all_done (fst (conc_run (jobs_of cwd base fetches) sched s)) ->
  In (dom, es) fetches -> In e es -> ignored e = false -> carries cwd base dom e l d ->
  (forall dom' es' e' d', In (dom', es') fetches -> In e' es' -> carries cwd base dom' e' l d' -> d' = d) ->
  snd (conc_run (jobs_of cwd base fetches) sched s) l = Some (File d).
Proof.
  intros cwd base fetches sched s dom es e l d A F E IG C S. apply same_all; [| |exact A].
  2: { eexists. split; [apply in_map_iff; exists (dom, es); split; [reflexivity|exact F]|]. apply job_carries. eauto. }
  intros d' W. apply fetches_write in W as (dom' & es' & e' & F' & E' & C'). eauto.
Qed.
Lemma delivered_last : forall cwd base a dom b sched s es1 e es2 l d,
  all_done (fst (conc_run (jobs_of cwd base (a ++ (dom, es1 ++ e :: es2) :: b)) sched s)) ->
  ignored e = false -> carries cwd base dom e l d ->
  (forall e' d', In e' es2 -> ~ carries cwd base dom e' l d') ->
  (forall dom' es' e' d', In (dom', es') (a ++ b) -> In e' es' -> ~ carries cwd base dom' e' l d') ->
  snd (conc_run (jobs_of cwd base (a ++ (dom, es1 ++ e :: es2) :: b)) sched s) l = Some (File d).
Proof.
  intros cwd base a dom b sched s es1 e es2 l d A IG C L O.
  apply (own_last (jobs_of cwd base (a ++ (dom, es1 ++ e :: es2) :: b)) l (List.length a) (job_ops cwd base dom (es1 ++ e :: es2))); [| | |exact A].
  - unfold jobs_of. rewrite map_app, nth_error_app2 by now rewrite map_length. rewrite map_length, Nat.sub_diag. reflexivity.
  - intros i j g d' J I. unfold jobs_of in J. rewrite nth_error_map in J. destruct (nth_error (a ++ (dom, es1 ++ e :: es2) :: b) i) as [(dom' & es')|] eqn:N; [|discriminate J].
    injection J as <-. apply job_carries in I as (e' & E' & _ & C'). destruct (Nat.eq_dec i (List.length a)) as [X|X]; [exact X|exfalso].
    apply (O dom' es' e' d'); [|exact E'|exact C']. apply in_or_app. destruct (Nat.ltb_spec i (List.length a)).
    + left. rewrite nth_error_app1 in N by assumption. eapply nth_error_In, N.
    + right. rewrite nth_error_app2 in N by assumption. destruct (i - List.length a)%nat as [|m] eqn:M; [lia|]. eapply nth_error_In, N.
  - apply ops_carries in C. apply in_split in C as (x & y & X). unfold job_ops. rewrite flat_map_app. cbn [flat_map]. rewrite X, IG, map_app. cbn [map].
    exists (job_ops cwd base dom es1 ++ map (pair false) x), (map (pair false) y ++ job_ops cwd base dom es2).
    split; [unfold job_ops; now rewrite <- !app_assoc|]. intros g d' I. apply in_app_or in I as [I|I].
    + (* one element writes one file, last *)
      assert (Y : y = []).
      { clear -X. unfold callback_ops in X. destruct (negb _); [destruct x; discriminate X|]. revert X. unfold write_ops.
        destruct (extract_folders (e_path e)) as [fo|], (extract_file (e_path e)) as [fi|]; intros X.
        2-4: destruct x as [|? [|]]; discriminate X.
        destruct (bad_path fi).
        - exfalso. assert (Z : In (OFile l d) (map ODir (prefixes (resolve cwd (path_join base fo))) ++ [OErr])) by (rewrite X; apply in_or_app; right; now left).
          apply in_app_or in Z as [Z|[Z|[]]]; [apply in_map_iff in Z as (? & Z & _); discriminate Z|discriminate Z].
        - revert x X. induction (prefixes (resolve cwd (path_join base fo))) as [|q qs IH]; intros x X.
          + destruct x as [|? x]; cbn in X; [injection X as _ X; now subst|]. injection X as _ X. destruct x; discriminate X.
          + destruct x as [|? x]; cbn in X; [discriminate X|]. injection X as _ X. exact (IH _ X). }
      subst y. destruct I.
    + apply job_carries in I as (e' & E' & _ & I). exact (L _ _ E' I).
Qed.

Lemma only_one : forall cwd base a dom es b l,
  (forall dom' es' e' d', In (dom', es') (a ++ b) -> In e' es' -> ~ carries cwd base dom' e' l d') ->
  forall i j g d', nth_error (jobs_of cwd base (a ++ (dom, es) :: b)) i = Some j -> In (g, OFile l d') j -> i = List.length a.
Proof.
  intros cwd base a dom es b l O i j g d' J I. unfold jobs_of in J. rewrite nth_error_map in J. destruct (nth_error (a ++ (dom, es) :: b) i) as [(dom' & es')|] eqn:N; [|discriminate J].
  injection J as <-. apply job_carries in I as (e' & E' & _ & C'). destruct (Nat.eq_dec i (List.length a)) as [X|X]; [exact X|exfalso].
  apply (O dom' es' e' d'); [|exact E'|exact C']. apply in_or_app. destruct (Nat.ltb_spec i (List.length a)).
  - left. rewrite nth_error_app1 in N by assumption. eapply nth_error_In, N.
  - right. rewrite nth_error_app2 in N by assumption. destruct (i - List.length a)%nat as [|m] eqn:M; [lia|]. eapply nth_error_In, N.
Qed.
Lemma moments : forall cwd base a dom es b l,
  (forall dom' es' e' d', In (dom', es') (a ++ b) -> In e' es' -> ~ carries cwd base dom' e' l d') ->
  forall sched s x, snd (conc_run (jobs_of cwd base (a ++ (dom, es) :: b)) sched s) l = Some (File x) ->
  s l = Some (File x) \/
  exists e d, In e es /\ carries cwd base dom e l d /\
    (x = d \/ (being_written (fst (conc_run (jobs_of cwd base (a ++ (dom, es) :: b)) sched s)) l /\ exists k, x = firstn k d)).
Proof.
  intros cwd base a dom es b l O sched s x X.
  destruct (own_moments (jobs_of cwd base (a ++ (dom, es) :: b)) l (List.length a) (job_ops cwd base dom es)) with (sched := sched) (s := s) (x := x) as [Q|(g & d & I & Q)].
  - unfold jobs_of. rewrite map_app, nth_error_app2 by now rewrite map_length. rewrite map_length, Nat.sub_diag. reflexivity.
  - apply only_one, O.
  - exact X.
  - now left.
  - right. apply job_carries in I as (e & E & _ & C). exists e, d. auto.
Qed.
Lemma not_ignored : forall e, ~ (e_withdraw e = true /\ e_snapshot e = false) -> ignored e = false.
Proof. intros e N. unfold ignored. destruct (e_withdraw e), (e_snapshot e); try reflexivity. destruct N. auto. Qed.

(** Two fetches that write the same place at the same time. *)
Definition c_elem (u d : bytes) : event := mkEvent (str "https://r/snap.xml") u d false true 9.
Definition c_dom := str "rsync://h/".
Definition c_url := str "rsync://h/m/a.cer".
Definition c_place := map str ["c"; "h"; "m"; "a.cer"]%string.
Definition c_fetches (d d' : bytes) := [(c_dom, [c_elem c_url d]); (c_dom, [c_elem c_url d'])].
(** Directories, both open, both write everything at once, both close. *)
Definition c_both : list (nat * nat) :=
  [(0, 0); (0, 0); (0, 0); (0, 0); (1, 0); (1, 0); (1, 0); (1, 0); (0, 99); (1, 99); (0, 0); (1, 0); (0, 0); (1, 0)]%nat.
(** The second comes in between two calls of write(2) of the first. *)
Definition c_between : list (nat * nat) :=
  [(0, 0); (0, 0); (0, 0); (0, 0); (0, 1); (1, 0); (1, 0); (1, 0); (1, 0); (1, 99); (1, 0); (1, 0); (0, 99); (0, 0); (0, 0)]%nat.

(** *** One fetch alone *)
Lemma overlay_nil : forall d, overlay 0 d [] = d.
Proof. intros d. unfold overlay. cbn [firstn app]. rewrite skipn_nil. apply app_nil_r. Qed.
Lemma conc_cons : forall c r ps, conc (c :: r) ps = conc r (conc_step ps c).
Proof. reflexivity. Qed.
Lemma conc_app : forall a b ps, conc (a ++ b) ps = conc b (conc a ps).
Proof. intros a b ps. apply fold_left_app. Qed.
Lemma conc_one : forall n p s, is_fatal p = false -> conc_step ([p], s) (0%nat, n) = (let (p', s') := proc_step n p s in ([p'], s')).
Proof. intros n p s F. unfold conc_step. cbn [fst snd existsb orb nth_error]. rewrite F. cbn [orb]. reflexivity. Qed.

Lemma write_all : forall l d r s, s l <> Some Dir -> exists sched t,
  conc sched ([Running (Some (l, d, O)) r], fset s l (File [])) = ([Running None r], t) /\ forall l0, t l0 = fset s l (File d) l0.
Proof.
  intros l d r s _. destruct d as [|b d].
  - exists [(0, 0)%nat], (fset s l (File [])). split; reflexivity.
  - exists [(0, List.length d)%nat; (0, 0)%nat], (fset (fset s l (File [])) l (File (overlay 0 (b :: d) []))). split.
    + rewrite conc_cons, conc_one by reflexivity. cbn [proc_step skipn].
      change (firstn (S (List.length d)) (b :: d)) with (firstn (List.length (b :: d)) (b :: d)). rewrite firstn_all, fset_eq.
      rewrite conc_cons, conc_one by reflexivity. cbn [proc_step Nat.add]. rewrite skipn_all. reflexivity.
    + intros l0. rewrite overlay_nil. unfold fset. destruct (leq l0 l); reflexivity.
Qed.

(** Directories first, then at most one other operation. *)
Fixpoint dirs_first (l : list op) : Prop :=
  match l with
  | [] => True
  | o :: r => match r with [] => True | _ => (exists d, o = ODir d) /\ dirs_first r end
  end.
Lemma dirs_one : forall ps o, dirs_first (map ODir ps ++ [o]).
Proof. induction ps as [|p ps IH]; intros o; [exact I|]. cbn [map app dirs_first]. destruct (map ODir ps ++ [o]) eqn:E; [exact I|]. rewrite <- E. split; [eauto|apply IH]. Qed.
Lemma callback_dirs : forall cwd base dom u d, dirs_first (callback_ops cwd base dom u d).
Proof.
  intros. unfold callback_ops. destruct (negb _); [exact I|]. unfold write_ops.
  destruct (extract_folders u), (extract_file u); try exact I. destruct (bad_path b0); apply dirs_one.
Qed.

Lemma run_ops : forall ops g r s s' s1 v, (forall l, s l = s' l) -> dirs_first ops -> exec ops s' = (s1, v) -> (v = VOk \/ (v = VErr /\ g = true)) ->
  exists sched t, conc sched ([Running None (map (pair g) ops ++ r)], s) = ([Running None r], t) /\ forall l, t l = s1 l.
Proof.
  induction ops as [|o ops IH]; intros g r s s' s1 v H DF E T.
  - injection E as <- <-. exists [], s. split; [reflexivity|exact H].
  - assert (FS : forall l n l0, fset s l n l0 = fset s' l n l0) by (intros l n l0; unfold fset; destruct (leq l0 l); auto).
    assert (DR : dirs_first ops) by (cbn in DF; destruct ops; [exact I|apply DF]).
    unfold exec in E. cbn [exec_with] in E. cbn [map app].
    destruct o as [l|l d| |].
    + cbn [step] in E. destruct (s' l) as [[|x]|] eqn:F.
      2: { injection E as _ <-. destruct T as [T|(T & _)]; discriminate T. }
      all: destruct (IH g r (fset s l Dir) (fset s' l Dir) s1 v) as (sched & t & A & B); [apply FS|exact DR|exact E|exact T|];
        exists ((0, 0)%nat :: sched), t; rewrite conc_cons, conc_one by reflexivity; cbn [proc_step step]; rewrite H, F; exact (conj A B).
    + assert (ops = []) by (cbn in DF; destruct ops as [|o1 ops]; [reflexivity|destruct DF as ((z & Z) & _); discriminate Z]). subst ops. cbn [map app].
      cbn [step exec_with] in E. destruct (s' l) as [[|x]|] eqn:F.
      * injection E as <- <-. destruct T as [T|(_ & ->)]; [discriminate T|]. exists [(0, 0)%nat], s. rewrite conc_cons, conc_one by reflexivity.
        cbn [proc_step]. rewrite H, F. split; [reflexivity|exact H].
      * injection E as <- <-. destruct (write_all l d r s) as (sched & t & A & B); [rewrite H, F; discriminate|]. exists ((0, 0)%nat :: sched), t.
        rewrite conc_cons, conc_one by reflexivity. cbn [proc_step]. rewrite H, F. split; [exact A|]. intros l0. rewrite B. apply FS.
      * injection E as <- <-. destruct (write_all l d r s) as (sched & t & A & B); [rewrite H, F; discriminate|]. exists ((0, 0)%nat :: sched), t.
        rewrite conc_cons, conc_one by reflexivity. cbn [proc_step]. rewrite H, F. split; [exact A|]. intros l0. rewrite B. apply FS.
    + assert (ops = []) by (cbn in DF; destruct ops as [|o1 ops]; [reflexivity|destruct DF as ((z & Z) & _); discriminate Z]). subst ops. cbn [map app].
      injection E as <- <-. destruct T as [T|(_ & ->)]; [discriminate T|]. exists [(0, 0)%nat], s. split; [reflexivity|exact H].
    + injection E as _ <-. destruct T as [T|(T & _)]; discriminate T.
Qed.
Lemma alone : forall cwd base dom s es s', plays (octo_cb cwd base dom) s es s' -> forall s0, (forall l, s0 l = s l) ->
  exists sched t, conc sched ([Running None (job_ops cwd base dom es)], s0) = ([Stopped VOk], t) /\ forall l, t l = s' l.
Proof.
  intros cwd base dom s es s' P. induction P as [s|s e s1 v es s' C T P IH]; intros s0 H.
  - exists [(0, 0)%nat], s0. split; [reflexivity|exact H].
  - assert (T' : v = VOk \/ (v = VErr /\ ignored e = true)).
    { destruct T as [T|(T & W & S)]; [now left|right]. split; [exact T|]. unfold ignored. now rewrite W, S. }
    destruct (run_ops _ (ignored e) (job_ops cwd base dom es) s0 s s1 v H (callback_dirs _ _ _ _ _) C T') as (a & t & A & B).
    destruct (IH t B) as (b & t' & A' & B'). exists (a ++ b), t'. rewrite conc_app. change (job_ops cwd base dom (e :: es)) with (map (pair (ignored e)) (callback_ops cwd base dom (e_path e) (e_data e)) ++ job_ops cwd base dom es).
    rewrite A. exact (conj A' B').
Qed.

Lemma mixture : exists fetches sched l x,
  all_done (fst (conc_run (jobs_of [] cache_base fetches) sched cache0)) /\
  snd (conc_run (jobs_of [] cache_base fetches) sched cache0) l = Some (File x) /\
  cache0 l = None /\
  forall dom es e, In (dom, es) fetches -> In e es -> ~ carries [] cache_base dom e l x.
Proof.
  exists (c_fetches (str "abc") (str "X")), c_both, c_place, (str "Xbc"). split; [|split; [|split]].
  - assert (E : fst (conc_run (jobs_of [] cache_base (c_fetches (str "abc") (str "X"))) c_both cache0) = [Stopped VOk; Stopped VOk]) by (vm_compute; reflexivity).
    rewrite E. repeat constructor.
  - vm_compute. reflexivity.
  - vm_compute. reflexivity.
  - intros dom es e F E (f & _ & _ & _ & _ & D). destruct F as [F|[F|[]]]; injection F as <- <-; destruct E as [<-|[]]; vm_compute in D; discriminate D.
Qed.
