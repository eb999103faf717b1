(** Fetches come to an end, and nothing follows log.Fatalf. *)
From Coq Require Import Lia String PeanoNat.
From Verif.Model Require Import Base Str Tal Paths Validator Cache Rrdp CacheConc.
From Verif.Spec Require Import CacheConcSpec.
From Verif.Proofs Require Import RrdpCrash CacheConcProofs CacheConcThm CacheConcWitness.

Lemma fatal_stays : forall sched ps s, In (Stopped VFatal) ps -> conc sched (ps, s) = (ps, s).
Proof.
  induction sched as [|c r IH]; intros ps s H; [reflexivity|]. rewrite conc_cons. unfold conc_step. cbn [fst].
  replace (existsb is_fatal ps) with true; [now apply IH|]. symmetry. apply existsb_exists. exists (Stopped VFatal). auto.
Qed.
Theorem fatal_end : forall jobs sched sched' s, In (Stopped VFatal) (fst (conc_run jobs sched s)) ->
  conc_run jobs (sched ++ sched') s = conc_run jobs sched s.
Proof.
  intros jobs sched sched' s H. unfold conc_run in *. rewrite conc_app. destruct (conc sched _) as (ps & s'). now apply fatal_stays.
Qed.

(** Steps left. *)
Definition op_size (x : fop) : nat := match snd x with OFile _ d => 2 + List.length d | _ => 1 end.
Definition size (p : proc) : nat :=
  match p with
  | Stopped _ => 0
  | Running c todo =>
      (1 + match c with Some (_, d, k) => 1 + (List.length d - k) | None => 0 end + list_sum (map op_size todo))%nat
  end.
Lemma size_step : forall n p s, (size (fst (proc_step n p s)) <= size p - 1)%nat.
Proof.
  intros n [[((l & d) & k)|] todo|v] s; cbn [proc_step size]; [| |cbn; lia].
  - destruct (skipn k d) as [|x rest] eqn:E; cbn [fst size]; [lia|].
    assert (L := f_equal (@List.length _) E). rewrite skipn_length in L. cbn [List.length] in L. cbn [firstn List.length]. lia.
  - destruct todo as [|(g & o) r]; [cbn; lia|].
    change (list_sum (map op_size ((g, o) :: r))) with (op_size (g, o) + list_sum (map op_size r))%nat. change (op_size (g, o)) with (match o with OFile _ d => 2 + List.length d | _ => 1 end)%nat.
    destruct o as [l|l d| |].
    + destruct (step (ODir l) s) as (s' & []); [|destruct g|]; cbn [fst size]; lia.
    + destruct (s l) as [[|x]|]; [destruct g|..]; cbn [fst size]; lia.
    + cbn [step]. destruct g; cbn [fst size]; lia.
    + cbn [step fst size]. lia.
Qed.

Lemma stopped_size : forall p, size p = 0%nat -> exists v, p = Stopped v.
Proof. intros [c r|v] H; [cbn in H; lia|now exists v]. Qed.

Lemma ends_at : forall sched ps s i p, nth_error ps i = Some p ->
  In (Stopped VFatal) (fst (conc sched (ps, s))) \/
  exists p', nth_error (fst (conc sched (ps, s))) i = Some p' /\ (size p' <= size p - count_occ Nat.eq_dec (map fst sched) i)%nat.
Proof.
  induction sched as [|c r IH]; intros ps s i p H; [right; exists p; split; [exact H|cbn; lia]|].
  rewrite conc_cons. unfold conc_step. cbn [fst snd].
  destruct (existsb is_fatal ps) eqn:F.
  { left. apply existsb_exists in F as (q & Q & FQ). destruct q as [|[]]; try discriminate. now rewrite fatal_stays. }
  destruct c as (j & n). cbn [fst snd map count_occ]. destruct (Nat.eq_dec j i) as [->|N].
  - rewrite H. assert (Z := size_step n p s). destruct (proc_step n p s) as (p1 & s1). cbn [fst] in Z.
    destruct (IH (set_nth i p1 ps) s1 i p1 (set_nth_eq _ _ _ _ H)) as [A|(p' & A & B)]; [now left|right]. exists p'. split; [exact A|lia].
  - destruct (nth_error ps j) as [q|]; [|apply IH; exact H]. destruct (proc_step n q s) as (q1 & s1).
    apply IH. rewrite set_nth_neq by exact N. exact H.
Qed.

Lemma conc_length : forall sched ps s, List.length (fst (conc sched (ps, s))) = List.length ps.
Proof.
  induction sched as [|c r IH]; intros ps s; [reflexivity|]. rewrite conc_cons. unfold conc_step. cbn [fst snd].
  destruct (existsb is_fatal ps); [apply IH|]. destruct (nth_error ps (fst c)) as [q|]; [|apply IH]. destruct (proc_step (snd c) q s) as (q1 & s1).
  rewrite IH. clear. generalize (fst c). induction ps as [|p ps IHp]; intros [|i]; cbn; auto.
Qed.

Theorem ends : forall jobs, exists N, forall sched s,
  (forall i, (i < List.length jobs)%nat -> (N <= count_occ Nat.eq_dec (map fst sched) i)%nat) ->
  In (Stopped VFatal) (fst (conc_run jobs sched s)) \/
  Forall (fun p => exists v, p = Stopped v) (fst (conc_run jobs sched s)).
Proof.
  intros jobs. exists (list_sum (map (fun j => size (Running None j)) jobs)). intros sched s C. unfold conc_run.
  set (ps := map (Running None) jobs).
  assert (D : In (Stopped VFatal) (fst (conc sched (ps, s))) \/ ~ In (Stopped VFatal) (fst (conc sched (ps, s)))).
  { generalize (fst (conc sched (ps, s))). intros l. destruct (existsb is_fatal l) eqn:E.
    - left. apply existsb_exists in E as (q & Q & FQ). destruct q as [|[]]; try discriminate. exact Q.
    - right. intros I. assert (existsb is_fatal l = true) by (apply existsb_exists; eexists; split; [exact I|reflexivity]). congruence. }
  destruct D as [D|D]; [now left|right]. rewrite Forall_forall. intros p P. apply In_nth_error in P as (i & P).
  assert (L : (i < List.length jobs)%nat).
  { assert (X : (i < List.length (fst (conc sched (ps, s))))%nat) by (apply nth_error_Some; congruence).
    rewrite conc_length in X. unfold ps in X. now rewrite map_length in X. }
  destruct (nth_error jobs i) as [j|] eqn:J; [|apply nth_error_None in J; lia].
  assert (J' : nth_error ps i = Some (Running None j)) by (unfold ps; rewrite nth_error_map, J; reflexivity).
  destruct (ends_at sched ps s i _ J') as [A|(p' & A & B)]; [contradiction|]. rewrite P in A. injection A as <-.
  apply stopped_size. specialize (C i L).
  assert (M : (size (Running None j) <= list_sum (map (fun j => size (Running None j)) jobs))%nat).
  { clear - J. revert i J. induction jobs as [|k ks IH]; intros [|i] J; try discriminate; cbn [nth_error] in J; cbn [map list_sum fold_right].
    - injection J as ->. change (fold_right Nat.add 0%nat ?x) with (list_sum x). lia.
    - specialize (IH i J). unfold list_sum in IH at 1. unfold list_sum. lia. }
  lia.
Qed.

(** Nothing disappears. *)
Definition same_kind (a b : option node) : Prop :=
  match a with
  | None => True
  | Some Dir => b = Some Dir
  | Some (File _) => exists y, b = Some (File y)
  end.
Lemma kind_step : forall n p s l, same_kind (s l) (snd (proc_step n p s) l).
Proof.
  assert (R : forall a, same_kind a a) by (intros [[|x]|]; cbn; eauto).
  intros n p s l. destruct p as [[((l' & d) & k)|] todo|v]; cbn [proc_step]; [| |apply R].
  - destruct (skipn k d); cbn [snd]; [apply R|]. destruct (s l') as [[|x]|] eqn:E; try apply R.
    destruct (loc_dec l l') as [->|N]; [rewrite fset_eq, E; cbn; eauto|rewrite fset_neq by exact N; apply R].
  - destruct todo as [|(g & o) r]; [apply R|]. destruct o as [l'|l' d| |].
    + cbn [step]. destruct (s l') as [[|x]|] eqn:E; cbn [snd]; try apply R.
      * destruct (loc_dec l l') as [->|N]; [rewrite fset_eq, E; reflexivity|rewrite fset_neq by exact N; apply R].
      * destruct (loc_dec l l') as [->|N]; [rewrite E; exact Logic.I|rewrite fset_neq by exact N; apply R].
    + destruct (s l') as [[|x]|] eqn:E; cbn [snd]; try apply R.
      all: destruct (loc_dec l l') as [->|N]; [rewrite fset_eq, E; cbn; eauto|rewrite fset_neq by exact N; apply R].
    + apply R.
    + apply R.
Qed.
Lemma kind_trans : forall a b c, same_kind a b -> same_kind b c -> same_kind a c.
Proof. intros [[|x]|] b c; cbn; [intros ->; auto| |auto]. intros (y & ->). auto. Qed.
Theorem kinds : forall sched ps s l, same_kind (s l) (snd (conc sched (ps, s)) l).
Proof.
  induction sched as [|c r IH]; intros ps s l; [destruct (s l) as [[|x]|] eqn:E; cbn; eauto|].
  rewrite conc_cons. unfold conc_step. cbn [fst snd]. destruct (existsb is_fatal ps); [apply IH|].
  destruct (nth_error ps (fst c)) as [p|]; [|apply IH]. assert (K := kind_step (snd c) p s l).
  destruct (proc_step (snd c) p s) as (p' & s'). cbn [snd] in K. exact (kind_trans _ _ _ K (IH _ s' l)).
Qed.
Lemma stays : forall jobs sched s l,
  (s l = Some Dir -> snd (conc_run jobs sched s) l = Some Dir) /\
  (forall x, s l = Some (File x) -> exists y, snd (conc_run jobs sched s) l = Some (File y)).
Proof.
  intros jobs sched s l. assert (K := kinds sched (map (Running None) jobs) s l). fold (conc_run jobs sched s) in K.
  split; [intros E|intros x E]; rewrite E in K; exact K.
Qed.
