(** Locks: what is guarded is not raced for, and the loop goes on. *)
From Coq Require Import Lia List Bool Arith.
From Verif.Model Require Import Base Shared.
From Verif.Spec Require Import SharedSpec.
Import ListNotations.
Open Scope nat_scope.

Lemma lock_eqb_spec : forall a b, reflect (a = b) (lock_eqb a b).
Proof. intros a b. unfold lock_eqb. destruct (lock_eq_dec a b); now constructor. Qed.
Lemma var_eqb_spec : forall a b, reflect (a = b) (var_eqb a b).
Proof. intros a b. unfold var_eqb. destruct (var_eq_dec a b); now constructor. Qed.

(** ** Lists of threads *)
Lemma update_length : forall l i t, length (update i t l) = length l.
Proof. induction l as [|x l IH]; intros [|i] t; cbn [update length]; auto. Qed.
Lemma update_same : forall l i t u, nth_error l i = Some u -> nth_error (update i t l) i = Some t.
Proof. induction l as [|x l IH]; intros [|i] t u H; cbn [update nth_error] in *; try discriminate; eauto. Qed.
Lemma update_other : forall l i j t, i <> j -> nth_error (update i t l) j = nth_error l j.
Proof. induction l as [|x l IH]; intros [|i] [|j] t N; cbn [update nth_error]; auto. congruence. Qed.
Lemma update_cases : forall l i j t u x, nth_error l i = Some u -> nth_error (update i t l) j = Some x ->
  (j = i /\ x = t) \/ (j <> i /\ nth_error l j = Some x).
Proof.
  intros l i j t u x U H. destruct (Nat.eq_dec j i) as [->|N].
  - rewrite (update_same l i t u U) in H. injection H as <-. auto.
  - rewrite update_other in H by auto. auto.
Qed.

(** ** What a goroutine may do, from what it holds *)
Definition guard (x : var) : option lock :=
  match x with
  | XFetch => Some LFetch | XDomain => Some LDomain | XJobs => Some LJobs | XRrdp => Some LRrdp
  | XInfo => Some LInfo | XRes => Some LRes
  | _ => None
  end.
Definition hold := option (lock * bool).
Definition tolist (h : hold) : list (lock * bool) := match h with None => [] | Some x => [x] end.
Definition may (h : hold) (x : var) (write : bool) : bool :=
  match guard x with
  | None => true
  | Some l => match h with Some (l', e) => lock_eqb l' l && (e || negb write) | None => false end
  end.
Definition exec_op (k : kind) (p : bool) (h : hold) (o : op) : option hold :=
  match o with
  | Lock l e => match h with None => Some (Some (l, e)) | Some _ => None end
  | Unlock l => match h with Some (l', _) => if lock_eqb l' l then Some None else None | None => None end
  | Rd x => if may h x false then Some h else None
  | Wr x _ => if may h x true then Some h else None
  | Send => match k, h with
            | Request, None => Some h
            | Request, Some _ => if p then Some h else None
            | _, _ => None
            end
  end.
Fixpoint exec_ops (k : kind) (p : bool) (h : hold) (l : list op) : option hold :=
  match l with
  | [] => Some h
  | o :: r => match exec_op k p h o with Some h' => exec_ops k p h' r | None => None end
  end.
Definition done_ops (k : kind) (p : bool) (l : list op) : bool :=
  match exec_ops k p None l with Some None => true | _ => false end.
Fixpoint exec (k : kind) (p : bool) (h : hold) (l : list act) : option hold :=
  match l with
  | [] => Some h
  | Do o :: r => match exec_op k p h o with Some h' => exec k p h' r | None => None end
  | Fork ws :: r => match k, h with
                    | Main, None => if forallb (done_ops Worker false) ws then exec k p None r else None
                    | _, _ => None
                    end
  | Join :: r => match k, h with Main, None => exec k p None r | _, _ => None end
  end.

Lemma exec_map : forall k p l h, exec k p h (map Do l) = exec_ops k p h l.
Proof. induction l as [|o l IH]; intros h; cbn [map exec exec_ops]; [reflexivity|]. destruct (exec_op k p h o); auto. Qed.
Lemma exec_app : forall k p a b h, exec k p h (a ++ b) = match exec k p h a with Some h' => exec k p h' b | None => None end.
Proof.
  induction a as [|x a IH]; intros b h; cbn [app exec]; [reflexivity|]. destruct x as [o|ws|].
  - destruct (exec_op k p h o); auto.
  - destruct k, h; auto. destruct (forallb _ ws); auto.
  - destruct k, h; auto.
Qed.
Lemma exec_ops_app : forall k p a b h, exec_ops k p h (a ++ b) = match exec_ops k p h a with Some h' => exec_ops k p h' b | None => None end.
Proof. induction a as [|x a IH]; intros b h; cbn [app exec_ops]; [reflexivity|]. destruct (exec_op k p h x); auto. Qed.

Lemma exec_ops_flat : forall {A} k p (f : A -> list op) l, (forall a, exec_ops k p None (f a) = Some None) ->
  exec_ops k p None (flat_map f l) = Some None.
Proof. intros A k p f l H. induction l as [|a l IH]; cbn [flat_map]; [reflexivity|]. now rewrite exec_ops_app, H. Qed.
Lemma exec_ops_repeat : forall k p o n, exec_op k p None o = Some None -> exec_ops k p None (repeat o n) = Some None.
Proof. intros k p o n H. induction n as [|n IH]; cbn [repeat exec_ops]; [reflexivity|]. now rewrite H. Qed.

(** ** The program obeys *)
Lemma fetch_ok : forall p v r, exec_ops Worker p None (fetch_rrdp v r) = Some None.
Proof. intros p v [|[]]; reflexivity. Qed.
Lemma workers_ok : forall p v (jobs : list (list fetched)), forallb (done_ops Worker p) (map (flat_map (fetch_rrdp v)) jobs) = true.
Proof.
  intros p v jobs. apply forallb_forall. intros w I. apply in_map_iff in I. destruct I as (js & <- & _). unfold done_ops.
  rewrite exec_ops_flat; auto. apply fetch_ok.
Qed.
Lemma idle_ok : forall p n, forallb (done_ops Worker p) (repeat [] n) = true.
Proof. induction n; auto. Qed.

Lemma iteration_ok : forall v r, exec Main false None (iteration v r) = Some None.
Proof.
  intros v r. unfold iteration.
  assert (A : exec Main false None (do_rrdp v r) = Some None).
  { unfold do_rrdp. destruct (r_rrdp r) as [[file jobs]|]; [|reflexivity]. rewrite exec_app.
    assert (X : exec Main false None (match file with Some true => map Do [Lock LRrdp true; Wr XRrdp v; Wr XRrdp v; Unlock LRrdp] | _ => [] end) = Some None)
      by (destruct file as [[]|]; reflexivity).
    rewrite X. cbn [exec]. rewrite workers_ok. destruct file; reflexivity. }
  rewrite exec_app, A.
  assert (B : exec_ops Main false None (main_tal v r) = Some None).
  { unfold main_tal. cbn [exec_ops exec_op may guard]. rewrite exec_ops_app, exec_ops_flat; [reflexivity|]. intros []; reflexivity. }
  rewrite exec_app, exec_map, B.
  assert (C : exec Main false None (main_rsync r) = Some None).
  { unfold main_rsync. cbn [exec]. now rewrite idle_ok. }
  rewrite exec_app, C.
  assert (D : exec_ops Main false None (main_validation v r) = Some None).
  { unfold main_validation, generate. rewrite exec_ops_app, exec_ops_flat.
    - rewrite exec_ops_app. cbn [writing exec_ops exec_op may guard lock_eqb lock_eq_dec lock_rec lock_rect andb orb negb].
      rewrite exec_ops_app. cbn [exec_ops exec_op may guard]. rewrite exec_ops_app, exec_ops_flat by reflexivity. reflexivity.
    - intros e. rewrite exec_ops_app, exec_ops_repeat by reflexivity. apply exec_ops_flat. intros []; reflexivity. }
  rewrite exec_app, exec_map, D.
  assert (E : exec_ops Main false None (reduce v r) = Some None).
  { unfold reduce. cbn [exec_ops exec_op may guard]. apply exec_ops_repeat. reflexivity. }
  rewrite exec_app, exec_map, E. destruct (r_stable r); reflexivity.
Qed.
Lemma loop_ok : forall rs v, exec Main false None (main_loop v rs) = Some None.
Proof. induction rs as [|r rs IH]; intros v; cbn [main_loop]; [reflexivity|]. rewrite exec_app, iteration_ok. apply IH. Qed.
Definition needs_client (q : request) : bool := match q with GetResources true => true | _ => false end.
Lemma serve_ok : forall q p, (needs_client q = true -> p = true) -> exec_ops Request p None (serve q) = Some None.
Proof. intros [[]|[]| |] p H; try reflexivity. rewrite (H eq_refl). reflexivity. Qed.

(** ** Invariant *)
Ltac fin := split; [first [reflexivity|assumption|congruence]|split; [first [assumption|congruence]|discriminate]].

Section Inv.
Variable reads : nat -> bool.
(** May request [i] send while it holds a lock? *)
Variable pl : nat -> bool.

Definition polite (i : nat) (k : kind) : bool := match k with Request => pl i | _ => false end.
Definition tinv (i : nat) (t : thread) : Prop :=
  (t_kind t = Main <-> i = O) /\
  exists h, t_held t = tolist h /\ exec (t_kind t) (polite i (t_kind t)) h (t_code t) = Some None /\
    (t_wait t = true -> exists l c, t_code t = Do (Lock l true) :: c).
Definition sinv (s : state) : Prop :=
  (0 < length (s_threads s)) /\
  (forall i t, nth_error (s_threads s) i = Some t -> tinv i t) /\
  (forall i j t u l e, i <> j -> nth_error (s_threads s) i = Some t -> nth_error (s_threads s) j = Some u ->
     In (l, true) (t_held t) -> ~ In (l, e) (t_held u)).

Lemma holds_false : forall l t, holds l t = false -> forall e, ~ In (l, e) (t_held t).
Proof.
  intros l t H e I. unfold holds in H. assert (E : existsb (fun h => lock_eqb (fst h) l) (t_held t) = true).
  { apply existsb_exists. exists (l, e). split; [exact I|]. cbn [fst]. destruct (lock_eqb_spec l l); congruence. }
  congruence.
Qed.
Lemma holds_true : forall l t, holds l t = true -> exists e, In (l, e) (t_held t).
Proof.
  intros l t H. unfold holds in H. apply existsb_exists in H. destruct H as ((l' & e) & I & E). cbn [fst] in E.
  destruct (lock_eqb_spec l' l); [subst; eauto|discriminate].
Qed.
Lemma excl_false : forall l t, holds_excl l t = false -> ~ In (l, true) (t_held t).
Proof.
  intros l t H I. unfold holds_excl in H. assert (E : existsb (fun h => lock_eqb (fst h) l && snd h) (t_held t) = true).
  { apply existsb_exists. exists (l, true). split; [exact I|]. cbn [fst snd]. destruct (lock_eqb_spec l l); [reflexivity|congruence]. }
  congruence.
Qed.
Lemma existsb_nth : forall (f : thread -> bool) l, existsb f l = false -> forall i t, nth_error l i = Some t -> f t = false.
Proof.
  intros f l H i t N. destruct (f t) eqn:E; [|reflexivity]. apply nth_error_In in N.
  assert (existsb f l = true) by (apply existsb_exists; eauto). congruence.
Qed.

(** Replacing thread [i] by one that holds no more than before, or something
    nobody excludes. *)
Lemma sinv_update : forall s i t t' st, sinv s -> nth_error (s_threads s) i = Some t -> tinv i t' ->
  (forall l e, In (l, e) (t_held t') -> In (l, e) (t_held t) \/
     (forall j u, j <> i -> nth_error (s_threads s) j = Some u -> if e : bool then forall e', ~ In (l, e') (t_held u) else ~ In (l, true) (t_held u))) ->
  sinv (mkS (update i t' (s_threads s)) st).
Proof.
  intros s i t t' st (L & T & X) N T' H. split; [cbn [s_threads]; now rewrite update_length|]. cbn [s_threads]. split.
  - intros j u J. destruct (update_cases _ _ _ _ _ _ N J) as [(-> & ->)|(NE & J')]; auto.
  - intros a b u w l e AB A B IA IB.
    destruct (update_cases _ _ _ _ _ _ N A) as [(-> & ->)|(NA & A')]; destruct (update_cases _ _ _ _ _ _ N B) as [(-> & ->)|(NB & B')].
    + congruence.
    + destruct (H l true IA) as [O|O].
      * exact (X i b t w l e AB N B' O IB).
      * exact (O b w NB B' e IB).
    + destruct (H l e IB) as [O|O].
      * exact (X a i u t l e AB A' N IA O).
      * specialize (O a u NA A'). destruct e; [exact (O true IA)|exact (O IA)].
    + exact (X a b u w l e AB A' B' IA IB).
Qed.

Lemma in_tolist : forall l e h, In (l, e) (tolist h) <-> h = Some (l, e).
Proof.
  intros l e [x|]; cbn [tolist In]; split; intros H; try discriminate; try contradiction.
  - destruct H as [->|[]]; reflexivity.
  - injection H as ->. now left.
Qed.

Theorem sinv_step : forall i s s', sinv s -> step reads i s = Some s' -> sinv s'.
Proof.
  intros i s s' I H. pose proof I as (L & T & X). unfold step in H. destruct (nth_error (s_threads s) i) as [t|] eqn:N; [|discriminate].
  cbv zeta in H. destruct (T i t N) as (KI & h & EH & EX & W). destruct (t_code t) as [|a c] eqn:C; [discriminate|].
  destruct a as [o|ws|].
  - cbn [exec] in EX. destruct (exec_op (t_kind t) (polite i (t_kind t)) h o) as [h'|] eqn:EO; [|discriminate].
    destruct o as [l e|l|x|x v|].
    + cbn [exec_op] in EO. destruct h as [|]; [discriminate|]. injection EO as <-. cbn [tolist] in EH.
      destruct e.
      * destruct (t_wait t) eqn:TW.
        -- destruct (existsb (holds l) (s_threads s)) eqn:EB; [discriminate|]. injection H as <-.
           apply (sinv_update s i t); auto.
           ++ split; [exact KI|]. exists (Some (l, true)). cbn [t_held t_code t_kind t_wait tolist]. rewrite EH. fin.
           ++ cbn [t_held]. rewrite EH. intros l' e' [E|[]]. injection E as <- <-. right. intros j u J U e'.
              apply holds_false. exact (existsb_nth _ _ EB j u U).
        -- injection H as <-. apply (sinv_update s i t); auto. split; [exact KI|].
           exists None. cbn [t_held t_code t_kind t_wait tolist]. split; [exact EH|]. split; [|eauto]. exact EX.
      * destruct (existsb _ (s_threads s)) eqn:EB; [discriminate|]. injection H as <-. apply (sinv_update s i t); auto.
        -- split; [exact KI|]. exists (Some (l, false)). cbn [t_held t_code t_kind t_wait tolist]. rewrite EH. fin.
        -- cbn [t_held]. rewrite EH. intros l' e' [E|[]]. injection E as <- <-. right. intros j u J U.
           apply excl_false. pose proof (existsb_nth _ _ EB j u U) as Z. cbv beta in Z. apply orb_false_iff in Z. apply Z.
    + cbn [exec_op] in EO. destruct h as [(l' & e)|]; [|discriminate]. destruct (lock_eqb l' l) eqn:EL; [|discriminate]. injection EO as <-.
      destruct (holds l t); [|discriminate]. injection H as <-. rewrite EH. cbn [tolist release fst]. rewrite EL.
      apply (sinv_update s i t); auto.
      * split; [exact KI|]. exists None. cbn [t_held t_code t_kind t_wait tolist]. fin.
      * cbn [t_held]. intros ? ? [].
    + cbn [exec_op] in EO. destruct (may h x false); [|discriminate]. injection EO as <-. injection H as <-.
      apply (sinv_update s i t); auto.
      split; [exact KI|]. exists h. cbn [t_held t_code t_kind t_wait]. fin.
    + cbn [exec_op] in EO. destruct (may h x true); [|discriminate]. injection EO as <-. injection H as <-.
      apply (sinv_update s i t); auto.
      split; [exact KI|]. exists h. cbn [t_held t_code t_kind t_wait]. fin.
    + assert (h' = h).
      { cbn [exec_op] in EO. destruct (t_kind t), h; try discriminate; try (destruct (polite i Request); [|discriminate]); now injection EO. }
      subst h'. destruct (reads i); [|discriminate]. injection H as <-. apply (sinv_update s i t); auto.
      split; [exact KI|]. exists h. cbn [t_held t_code t_kind t_wait]. fin.
  - cbn [exec] in EX. destruct (t_kind t) eqn:K; [|discriminate..]. destruct h as [|]; [discriminate|].
    destruct (forallb (done_ops Worker false) ws) eqn:FW; [|discriminate]. injection H as <-.
    assert (S1 : sinv (mkS (update i (mkT Main c (t_held t) false (t_seen t)) (s_threads s)) (s_store s))).
    { apply (sinv_update s i t); auto. split; [exact KI|]. exists None. cbn [t_held t_code t_kind t_wait]. fin. }
    destruct S1 as (L1 & T1 & X1). cbn [s_threads] in *. set (old := update i _ (s_threads s)) in *.
    set (new := map (fun w => mkT Worker (map Do w) [] false []) ws).
    assert (NW : forall j u, nth_error (old ++ new) j = Some u -> nth_error old j = Some u \/ (length old <= j /\ In u new)).
    { intros j u J. destruct (Nat.lt_ge_cases j (length old)) as [B|B].
      - rewrite nth_error_app1 in J by exact B. auto.
      - rewrite nth_error_app2 in J by exact B. apply nth_error_In in J. auto. }
    assert (NH : forall u, In u new -> t_held u = []).
    { intros u U. unfold new in U. apply in_map_iff in U. destruct U as (w & <- & _). reflexivity. }
    split; [cbn [s_threads]; rewrite app_length; lia|]. cbn [s_threads]. split.
    + intros j u J. destruct (NW j u J) as [J'|(B & U)]; [auto|]. unfold new in U. apply in_map_iff in U. destruct U as (w & <- & IW).
      split; [cbn [t_kind]; split; [discriminate|lia]|]. exists None. cbn [t_kind t_held t_code t_wait polite]. split; [reflexivity|].
      split; [|discriminate]. rewrite exec_map. rewrite forallb_forall in FW. specialize (FW w IW). unfold done_ops in FW.
      destruct (exec_ops Worker false None w) as [[|]|]; try discriminate; reflexivity.
    + intros a b u w l e AB A B IA IB. destruct (NW a u A) as [A'|(_ & U)]; [|rewrite (NH u U) in IA; destruct IA].
      destruct (NW b w B) as [B'|(_ & U)]; [|rewrite (NH w U) in IB; destruct IB]. exact (X1 a b u w l e AB A' B' IA IB).
  - cbn [exec] in EX. destruct (t_kind t) eqn:K; [|discriminate..]. destruct h as [|]; [discriminate|].
    destruct (forallb _ (s_threads s)); [|discriminate]. injection H as <-. apply (sinv_update s i t); auto.
    split; [exact KI|]. exists None. cbn [t_held t_code t_kind t_wait]. fin.
Qed.

Theorem sinv_run : forall sched s s', sinv s -> run reads sched s = Some s' -> sinv s'.
Proof.
  induction sched as [|i r IH]; intros s s' I H; cbn [run] in H; [congruence|].
  destruct (step reads i s) as [s1|] eqn:E; [|discriminate]. eapply IH; [|exact H]. eapply sinv_step; eauto.
Qed.

Lemma sinv_start : forall rs qs, (forall k q, nth_error qs k = Some q -> needs_client q = true -> pl (S k) = true) -> sinv (start rs qs).
Proof.
  intros rs qs P. assert (E : forall i t, nth_error (s_threads (start rs qs)) i = Some t ->
    (i = O /\ t = mkT Main (main_loop 1 rs) [] false []) \/
    (exists k q, i = S k /\ nth_error qs k = Some q /\ t = mkT Request (map Do (serve q)) [] false [])).
  { intros [|k] t H; cbn [start s_threads nth_error] in H; [left; split; congruence|right].
    rewrite nth_error_map in H. destruct (nth_error qs k) as [q|] eqn:Q; [|discriminate]. cbn in H. injection H as <-. eauto. }
  split; [cbn; lia|]. split.
  - intros i t H. destruct (E i t H) as [(-> & ->)|(k & q & -> & Q & ->)].
    + split; [cbn; tauto|]. exists None. cbn [t_held t_code t_kind t_wait tolist]. split; [reflexivity|]. split; [apply loop_ok|discriminate].
    + split; [cbn [t_kind]; split; [discriminate|lia]|]. exists None. cbn [t_held t_code t_kind t_wait tolist polite].
      split; [reflexivity|]. split; [|discriminate]. rewrite exec_map. apply serve_ok. intros NC. eapply P; eauto.
  - intros i j t u l e _ A _ I. destruct (E i t A) as [(_ & ->)|(k & q & _ & _ & ->)]; destruct I.
Qed.

(** ** Progress *)
Definition weight_op (o : op) : nat := match o with Lock _ true => 2 | _ => 1 end.
Fixpoint weight_ops (l : list op) : nat := match l with [] => 0 | o :: r => weight_op o + weight_ops r end.
Definition weight_act (a : act) : nat :=
  match a with Do o => weight_op o | Fork ws => 1 + list_sum (map weight_ops ws) | Join => 1 end.
Fixpoint weight (l : list act) : nat := match l with [] => 0 | a :: r => weight_act a + weight r end.
Definition weight_t (t : thread) : nat := weight (t_code t) - (if t_wait t then 1 else 0).
Definition weight_s (s : state) : nat := list_sum (map weight_t (s_threads s)).

Lemma weight_map : forall l, weight (map Do l) = weight_ops l.
Proof. induction l as [|o l IH]; cbn [map weight weight_ops weight_act]; auto. Qed.
Lemma weight_op_pos : forall o, 1 <= weight_op o.
Proof. intros [l []| | | |]; cbn; lia. Qed.
Lemma weight_update : forall l i t u, nth_error l i = Some u ->
  list_sum (map weight_t (update i t l)) + weight_t u = list_sum (map weight_t l) + weight_t t.
Proof.
  unfold list_sum. induction l as [|x l IH]; intros [|i] t u H; cbn [nth_error update map fold_right] in *; try discriminate.
  - injection H as ->. lia.
  - specialize (IH i t u H). lia.
Qed.

Lemma step_less : forall i s s', sinv s -> step reads i s = Some s' -> weight_s s' < weight_s s.
Proof.
  intros i s s' (_ & T & _) H. unfold step in H. destruct (nth_error (s_threads s) i) as [t|] eqn:N; [|discriminate].
  cbv zeta in H. destruct (T i t N) as (_ & h & _ & _ & W).
  assert (G : forall t' st, weight_t t' < weight_t t -> weight_s (mkS (update i t' (s_threads s)) st) < weight_s s).
  { intros t' st L. unfold weight_s. cbn [s_threads]. pose proof (weight_update (s_threads s) i t' t N). lia. }
  destruct (t_code t) as [|a c] eqn:C; [discriminate|].
  assert (WT : weight_t t = weight_act a + weight c - (if t_wait t then 1 else 0)) by (unfold weight_t; rewrite C; reflexivity).
  assert (NL : forall k h' seen, (t_wait t = true -> 2 <= weight_act a) -> 1 <= weight_act a -> weight_t (mkT k c h' false seen) < weight_t t).
  { intros k h' seen WW P. rewrite WT. unfold weight_t. cbn [t_code t_wait]. destruct (t_wait t); [specialize (WW eq_refl)|]; lia. }
  assert (W2 : t_wait t = true -> 2 <= weight_act a).
  { intros E. destruct (W E) as (l & c' & E'). injection E' as -> _. cbn. lia. }
  destruct a as [o|ws|].
  - pose proof (weight_op_pos o) as P. destruct o as [l [] |l|x|x v|].
    + destruct (t_wait t) eqn:TW.
      * destruct (existsb _ _); [discriminate|]. injection H as <-. apply G. apply NL; [exact W2|exact P].
      * injection H as <-. apply G. rewrite WT. unfold weight_t. cbn [t_code t_wait weight weight_act weight_op]. lia.
    + destruct (existsb _ _); [discriminate|]. injection H as <-. apply G. apply NL; [exact W2|exact P].
    + destruct (holds l t); [|discriminate]. injection H as <-. apply G. apply NL; [exact W2|exact P].
    + injection H as <-. apply G. apply NL; [exact W2|exact P].
    + injection H as <-. apply G. apply NL; [exact W2|exact P].
    + destruct (reads i); [|discriminate]. injection H as <-. apply G. apply NL; [exact W2|exact P].
  - injection H as <-. unfold weight_s. cbn [s_threads]. rewrite map_app, list_sum_app.
    pose proof (weight_update (s_threads s) i (mkT (t_kind t) c (t_held t) false (t_seen t)) t N) as E.
    assert (EN : list_sum (map weight_t (map (fun w => mkT Worker (map Do w) [] false []) ws)) = list_sum (map weight_ops ws)).
    { rewrite map_map. f_equal. apply map_ext. intros w. unfold weight_t. cbn [t_code t_wait]. rewrite weight_map. lia. }
    rewrite EN. destruct (t_wait t) eqn:TW; [destruct (W eq_refl) as (l & c' & E'); discriminate|].
    assert (X : weight_t (mkT (t_kind t) c (t_held t) false (t_seen t)) = weight c) by (unfold weight_t; cbn [t_code t_wait]; lia).
    rewrite WT, X in E. cbn [weight_act] in E.
    lia.
  - destruct (forallb _ _); [|discriminate]. injection H as <-. apply G. apply NL; [exact W2|cbn; lia].
Qed.

Hypothesis pl_reads : forall i, pl i = true -> reads i = true.

(** A goroutine inside a lock can go on. *)
Lemma inside_steps : forall s i t l e, sinv s -> nth_error (s_threads s) i = Some t -> t_held t = [(l, e)] ->
  exists s', step reads i s = Some s'.
Proof.
  intros s i t l e (_ & T & _) N H. destruct (T i t N) as (_ & h & EH & EX & _).
  assert (E : h = Some (l, e)) by (apply in_tolist; rewrite <- EH, H; now left). subst h.
  unfold step. rewrite N. cbv zeta. destruct (t_code t) as [|a c]; [discriminate|]. destruct a as [o|ws|].
  - cbn [exec] in EX. destruct (exec_op _ _ _ o) as [h'|] eqn:EO; [|discriminate]. destruct o as [l' e'|l'|x|x v|]; cbn [exec_op] in EO.
    + discriminate.
    + destruct (lock_eqb l l') eqn:EL; [|discriminate].
      assert (HL : holds l' t = true) by (unfold holds; rewrite H; cbn [existsb fst]; now rewrite EL). rewrite HL. eauto.
    + eauto.
    + eauto.
    + destruct (t_kind t) eqn:K; try discriminate. destruct (polite i Request) eqn:P; [|discriminate].
      cbn [polite] in P. rewrite (pl_reads i P). eauto.
  - cbn [exec] in EX. destruct (t_kind t); discriminate.
  - cbn [exec] in EX. destruct (t_kind t); discriminate.
Qed.

(** Goroutine [i] does not wait for a client that does not read. *)
Definition eligible (i : nat) (t : thread) : Prop := t_kind t = Request -> reads i = true.

Lemma progress : forall s i0 t0, sinv s -> nth_error (s_threads s) i0 = Some t0 -> eligible i0 t0 -> t_code t0 <> [] ->
  exists i s', step reads i s = Some s'.
Proof.
  intros s i0 t0 I N0 EL NC0. pose proof I as (L & T & X).
  destruct (existsb (fun t => match t_held t with [] => false | _ => true end) (s_threads s)) eqn:EH.
  { apply existsb_exists in EH. destruct EH as (t & IT & E). apply In_nth_error in IT. destruct IT as (i & N).
    destruct (T i t N) as (_ & h & E1 & _). rewrite E1 in E. destruct h as [(l & e)|]; [|discriminate].
    exists i. apply (inside_steps s i t l e); auto. }
  assert (NH : forall j u, nth_error (s_threads s) j = Some u -> t_held u = []).
  { intros j u J. pose proof (existsb_nth _ _ EH j u J) as Z. cbv beta in Z. destruct (t_held u); [reflexivity|discriminate]. }
  assert (NB : forall l, existsb (holds l) (s_threads s) = false).
  { intros l. destruct (existsb (holds l) (s_threads s)) eqn:E; [|reflexivity]. apply existsb_exists in E. destruct E as (u & U & E).
    apply In_nth_error in U. destruct U as (j & U). unfold holds in E. rewrite (NH j u U) in E. discriminate. }
  destruct (existsb t_wait (s_threads s)) eqn:EW.
  { apply existsb_exists in EW. destruct EW as (t & IT & E). apply In_nth_error in IT. destruct IT as (i & N).
    destruct (T i t N) as (_ & h & _ & _ & W). destruct (W E) as (l & c & C). exists i. unfold step. rewrite N, C, E, NB. eauto. }
  assert (NE : forall l, existsb (fun u => holds_excl l u || waits_for l u) (s_threads s) = false).
  { intros l. destruct (existsb (fun u => holds_excl l u || waits_for l u) (s_threads s)) eqn:E; [|reflexivity]. apply existsb_exists in E. destruct E as (u & U & E).
    apply In_nth_error in U. destruct U as (j & U). unfold holds_excl, waits_for in E. rewrite (NH j u U) in E.
    pose proof (existsb_nth _ _ EW j u U) as Z. rewrite Z in E. discriminate. }
  (* no lock is held, nobody waits: any goroutine but one at a Join can go on *)
  assert (G : forall i t, nth_error (s_threads s) i = Some t -> eligible i t -> t_code t <> [] -> (forall c, t_code t <> Join :: c) ->
    exists s', step reads i s = Some s').
  { intros i t N K NC NJ. destruct (T i t N) as (_ & h & E1 & EX & _). rewrite (NH i t N) in E1. destruct h as [|]; [discriminate|].
    unfold step. rewrite N. cbv zeta. destruct (t_code t) as [|a c]; [congruence|]. destruct a as [o|ws|].
    - cbn [exec] in EX. destruct o as [l []|l|x|x v|]; cbn [exec_op] in EX.
      + rewrite NB. destruct (t_wait t); eauto.
      + rewrite NE. eauto.
      + discriminate.
      + eauto.
      + eauto.
      + unfold eligible in K. destruct (t_kind t); try discriminate. rewrite (K eq_refl). eauto.
    - eauto.
    - exfalso. exact (NJ c eq_refl). }
  destruct (t_code t0) as [|a c] eqn:C; [congruence|]. destruct a as [o|ws|].
  1,2: exists i0; apply (G i0 t0 N0 EL); rewrite ?C; discriminate.
  destruct (forallb (fun u => negb (is_worker u) || finished u) (s_threads s)) eqn:FB.
  { exists i0. unfold step. rewrite N0, C, FB. eauto. }
  assert (EU : exists u, In u (s_threads s) /\ is_worker u = true /\ finished u = false).
  { clear - FB. induction (s_threads s) as [|x l IH]; cbn [forallb] in FB; [discriminate|]. apply andb_false_iff in FB. destruct FB as [F|F].
    - exists x. apply orb_false_iff in F. destruct F as (F1 & F2). split; [now left|]. split; [now apply negb_false_iff|exact F2].
    - destruct (IH F) as (u & U & R). exists u. split; [now right|exact R]. }
  destruct EU as (u & U & WU & FU). apply In_nth_error in U. destruct U as (j & U). exists j. apply (G j u U).
  - unfold eligible. unfold is_worker in WU. destruct (t_kind u); discriminate.
  - unfold finished in FU. destruct (t_code u); discriminate.
  - intros c' E. destruct (T j u U) as (_ & h' & _ & EX' & _). rewrite E in EX'. cbn [exec] in EX'. unfold is_worker in WU. destruct (t_kind u); discriminate.
Qed.

Definition all_done (s : state) : Prop := forall i t, nth_error (s_threads s) i = Some t -> eligible i t -> t_code t = [].
Lemma all_done_dec : forall s, all_done s \/ exists i t, nth_error (s_threads s) i = Some t /\ eligible i t /\ t_code t <> [].
Proof.
  intros s. unfold all_done.
  assert (H : forall l k, (forall i t, nth_error l i = Some t -> eligible (k + i) t -> t_code t = []) \/
    exists i t, nth_error l i = Some t /\ eligible (k + i) t /\ t_code t <> []).
  { clear. induction l as [|x l IH]; intros k.
    - left. intros [|i] t H; discriminate.
    - destruct (IH (S k)) as [A|(i & t & A & B & C)].
      + assert (D : eligible (k + 0) x \/ ~ eligible (k + 0) x).
        { unfold eligible. destruct (t_kind x); [left; discriminate| |left; discriminate]. destruct (reads (k + 0)); [left; auto|right].
          intros Z. specialize (Z eq_refl). discriminate. }
        destruct D as [D|D].
        * destruct (t_code x) as [|a c] eqn:C; [left|right; exists 0, x; cbn [nth_error]; rewrite C; split; [reflexivity|split; [exact D|discriminate]]].
          intros [|i] t N E; cbn [nth_error] in N; [congruence|]. apply (A i t N). now replace (S k + i) with (k + S i) by lia.
        * left. intros [|i] t N E; cbn [nth_error] in N; [injection N as ->; contradiction|]. apply (A i t N). now replace (S k + i) with (k + S i) by lia.
      + right. exists (S i), t. split; [exact A|]. split; [|exact C]. now replace (k + S i) with (S k + i) by lia. }
  exact (H (s_threads s) 0).
Qed.

Theorem finishes : forall s, sinv s -> exists sched s', run reads sched s = Some s' /\ all_done s' /\ sinv s'.
Proof.
  intros s. remember (weight_s s) as n eqn:E. revert s E. induction n as [n IH] using lt_wf_ind. intros s E I. subst n.
  destruct (all_done_dec s) as [D|(i0 & t0 & A & B & C)]; [exists [], s; auto|]. destruct (progress s i0 t0 I A B C) as (i & s1 & S1).
  destruct (IH (weight_s s1) (step_less i s s1 I S1) s1 eq_refl (sinv_step i s s1 I S1)) as (sched & s2 & R & F).
  exists (i :: sched), s2. split; [|exact F]. cbn [run]. now rewrite S1.
Qed.
End Inv.
