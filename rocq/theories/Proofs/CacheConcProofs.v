(** Concurrent writes. *)
From Coq Require Import Lia String.
From Verif.Model Require Import Base Str Tal Paths Validator Cache Rrdp CacheConc.
From Verif.Spec Require Import CacheConcSpec.
From Verif.Proofs Require Import StrProofs PathProofs CacheProofs RrdpCrash.

Lemma nth_overlay : forall k d x j, nth_error (overlay k d x) j =
  if Nat.ltb j k then (if Nat.ltb j (List.length x) then nth_error x j else Some 0%Z)
  else if Nat.ltb j (k + List.length d) then nth_error d (j - k) else nth_error x j.
Proof.
  intros k d x j. unfold overlay.
  assert (L : List.length (firstn k (x ++ repeat 0%Z (k - List.length x))) = k).
  { rewrite firstn_length, app_length, repeat_length. lia. }
  destruct (Nat.ltb_spec j k) as [A|A].
  - rewrite nth_error_app1 by (rewrite L; exact A).
    assert (E : forall (l : bytes) n m, (m < n)%nat -> nth_error (firstn n l) m = nth_error l m).
    { induction l as [|y l IH]; intros [|n] [|m] H; try lia; cbn; auto. apply IH. lia. }
    rewrite E by exact A. destruct (Nat.ltb_spec j (List.length x)) as [B|B].
    + now rewrite nth_error_app1.
    + rewrite nth_error_app2 by exact B. apply nth_error_repeat. lia.
  - rewrite nth_error_app2 by (rewrite L; exact A). rewrite L. destruct (Nat.ltb_spec j (k + List.length d)) as [B|B].
    + now rewrite nth_error_app1 by lia.
    + rewrite nth_error_app2 by lia.
      assert (E : forall (l : bytes) n m, nth_error (skipn n l) m = nth_error l (n + m)).
      { induction l as [|y l IH]; intros [|n] m; try reflexivity; [destruct m; reflexivity|]. cbn. apply IH. }
      rewrite E. f_equal. lia.
Qed.

(** *** Reaching states *)
Lemma In_set_nth : forall {A} (l : list A) i (x y : A), In y (set_nth i x l) -> y = x \/ In y l.
Proof. induction l as [|z l IH]; intros [|i] x y H; cbn in H; [contradiction|contradiction|destruct H as [<-|H]; cbn; auto|]. destruct H as [<-|H]; [cbn; auto|]. destruct (IH _ _ _ H); cbn; auto. Qed.
Lemma set_nth_eq : forall {A} (l : list A) i (x p : A), nth_error l i = Some p -> nth_error (set_nth i x l) i = Some x.
Proof. induction l as [|z l IH]; intros [|i] x p H; try discriminate; [reflexivity|]. cbn. eapply IH, H. Qed.
Lemma set_nth_neq : forall {A} (l : list A) i j (x : A), i <> j -> nth_error (set_nth i x l) j = nth_error l j.
Proof. induction l as [|z l IH]; intros [|i] [|j] x H; try reflexivity; [congruence|]. cbn. apply IH. congruence. Qed.

Section Inv.
Variable P : list proc -> fs -> Prop.
Hypothesis pres : forall ps s i n p, P ps s -> nth_error ps i = Some p ->
  P (set_nth i (fst (proc_step n p s)) ps) (snd (proc_step n p s)).
Lemma conc_inv : forall sched ps s, P ps s -> P (fst (conc sched (ps, s))) (snd (conc sched (ps, s))).
Proof.
  induction sched as [|(i & n) r IH]; intros ps s H; [exact H|]. unfold conc. cbn [fold_left]. fold (conc r).
  unfold conc_step. cbn [fst snd]. destruct (existsb is_fatal ps); [apply IH, H|].
  destruct (nth_error ps i) as [p|] eqn:E; [|apply IH, H].
  assert (Q := pres ps s i n p H E). destruct (proc_step n p s) as (p' & s'). apply IH, Q.
Qed.
End Inv.

(** The operations left are operations of the job. *)
Definition left_of (j : list fop) (p : proc) : Prop :=
  match p with
  | Running c r => (exists a, j = a ++ r) /\ forall l d k, c = Some (l, d, k) -> exists ign, In (ign, OFile l d) j
  | Stopped _ => True
  end.
Lemma left_step : forall n j p s, left_of j p -> left_of j (fst (proc_step n p s)).
Proof.
  intros n j [[((l & d) & k)|] r|v] s H; cbn [proc_step]; [..|exact H].
  - destruct H as (H & C). destruct (skipn k d) as [|y rest] eqn:E; cbn [fst left_of]; (split; [exact H|]); [discriminate|].
    intros l0 d0 k0 X. injection X as <- <- <-. eapply C; reflexivity.
  - destruct H as ((a & ->) & _). destruct r as [|(g & o) r]; [exact I|].
    assert (E : exists b, a ++ (g, o) :: r = b ++ r) by (exists (a ++ [(g, o)]); now rewrite <- app_assoc).
    assert (R : left_of (a ++ (g, o) :: r) (Running None r)) by (split; [exact E|discriminate]).
    assert (G : forall x : fs * verdict, left_of (a ++ (g, o) :: r) (fst (match x with (s', VOk) => (Running None r, s') | (s', VErr) => (if g then Running None r else Stopped VErr, s') | (s', VFatal) => (Stopped VFatal, s') end))).
    { intros (s' & []); cbn [fst]; [exact R|destruct g; [exact R|exact I]|exact I]. }
    destruct o as [l|l d| |]; [apply (G (step (ODir l) s))| |apply (G (step OErr s))|apply (G (step OFatal s))].
    destruct (s l) as [[|y]|]; cbn [fst]; [destruct g; [exact R|exact I]|..]; (split; [exact E|]); intros l0 d0 k0 X; injection X as <- <- <-; exists g; apply in_or_app; right; now left.
Qed.
Definition lefts (jobs : list (list fop)) (ps : list proc) : Prop := Forall2 left_of jobs ps.
Lemma lefts_set : forall jobs ps i p', lefts jobs ps -> (forall j p, nth_error jobs i = Some j -> nth_error ps i = Some p -> left_of j p') -> lefts jobs (set_nth i p' ps).
Proof.
  intros jobs ps i p' H. revert i. induction H as [|j p jobs ps A B IH]; intros i G; [destruct i; constructor|].
  destruct i as [|i]; cbn [set_nth]; constructor; auto; [exact (G j p eq_refl eq_refl)|apply IH; intros j0 p0; apply (G j0 p0)].
Qed.
Lemma lefts_nth : forall jobs ps i p, lefts jobs ps -> nth_error ps i = Some p -> exists j, nth_error jobs i = Some j /\ left_of j p.
Proof.
  intros jobs ps i p H. revert i. induction H as [|j q jobs ps A B IH]; intros [|i] E; try discriminate; [injection E as <-; exists j; split; [reflexivity|exact A]|]. apply IH, E.
Qed.
Lemma lefts_step : forall jobs ps s i n p, lefts jobs ps -> nth_error ps i = Some p -> lefts jobs (set_nth i (fst (proc_step n p s)) ps).
Proof.
  intros jobs ps s i n p H E. apply lefts_set; [exact H|]. intros j q J Q. destruct (lefts_nth _ _ _ _ H E) as (j' & J' & L).
  assert (j' = j) by congruence. subst j'. now apply left_step.
Qed.
Lemma lefts_start : forall jobs, lefts jobs (map (Running None) jobs).
Proof. induction jobs as [|j r IH]; constructor; [|exact IH]. split; [exists []; reflexivity|discriminate]. Qed.

(** *** One step, seen at one place *)
Inductive seen (l : loc) (s : fs) : proc -> proc -> option node -> Prop :=
| se_same p p' : (forall d k r, p <> Running (Some (l, d, k)) r) -> (forall d k r, p' <> Running (Some (l, d, k)) r) ->
    (forall g d r, p = Running None ((g, OFile l d) :: r) -> s l = Some Dir /\ p' = if g : bool then Running None r else Stopped VErr) -> seen l s p p' (s l)
| se_stop v : seen l s (Stopped v) (Stopped v) (s l)
| se_dir g r : (forall x, s l <> Some (File x)) -> seen l s (Running None ((g, ODir l) :: r)) (Running None r) (Some Dir)
| se_open g d r : s l <> Some Dir -> seen l s (Running None ((g, OFile l d) :: r)) (Running (Some (l, d, O)) r) (Some (File []))
| se_write d k r part x : s l = Some (File x) -> part <> [] -> (exists t, skipn k d = part ++ t) ->
    seen l s (Running (Some (l, d, k)) r) (Running (Some (l, d, (k + List.length part)%nat)) r) (Some (File (overlay k part x)))
| se_nofile d k r k' : (forall x, s l <> Some (File x)) -> seen l s (Running (Some (l, d, k)) r) (Running (Some (l, d, k')) r) (s l)
| se_close d k r : skipn k d = [] -> seen l s (Running (Some (l, d, k)) r) (Running None r) (s l).

Lemma step_seen : forall l s n p, seen l s p (fst (proc_step n p s)) (snd (proc_step n p s) l).
Proof.
  intros l s n p. destruct p as [[((l' & d) & k)|] r|v]; cbn [proc_step]; [..|apply se_stop].
  - destruct (skipn k d) as [|y rest] eqn:E.
    + cbn [fst snd]. destruct (leq l l') eqn:L.
      * apply leq_eq in L. subst l'. now apply se_close.
      * apply se_same; try discriminate. intros d0 k0 r0 X. injection X as -> _ _ _. rewrite leq_refl in L. discriminate L.
    + cbn [fst snd]. destruct (leq l l') eqn:L.
      * apply leq_eq in L. subst l'. destruct (s l) as [[|x]|] eqn:F.
        -- rewrite F, <- F. apply se_nofile. rewrite F. discriminate.
        -- rewrite fset_eq. apply se_write; [exact F|cbn; discriminate|]. exists (skipn (S n) (y :: rest)). now rewrite firstn_skipn.
        -- rewrite F, <- F. apply se_nofile. rewrite F. discriminate.
      * assert (N : l <> l') by (intros ->; rewrite leq_refl in L; discriminate L).
        assert (X : (match s l' with Some (File x) => fset s l' (File (overlay k (firstn (S n) (y :: rest)) x)) | _ => s end) l = s l).
        { destruct (s l') as [[|x]|]; try reflexivity. now apply fset_neq. }
        rewrite X. apply se_same; [intros d0 k0 r0 Y; injection Y as Y _ _ _; congruence..|discriminate].
  - destruct r as [|(g & o) r]; [apply se_same; discriminate|]. destruct o as [l'|l' d| |]; [| |destruct g; apply se_same; discriminate|apply se_same; discriminate].
    + cbn [step]. destruct (s l') as [[|x]|] eqn:F; cbn [fst snd]; [|apply se_same; discriminate|].
      all: destruct (leq l l') eqn:L; [apply leq_eq in L; subst l'; rewrite fset_eq; apply se_dir; rewrite F; discriminate|].
      all: assert (N : l <> l') by (intros ->; rewrite leq_refl in L; discriminate L); rewrite (fset_neq _ _ _ _ N); apply se_same; discriminate.
    + destruct (leq l l') eqn:L.
      * apply leq_eq in L. subst l'. destruct (s l) as [[|x]|] eqn:F; cbn [fst snd].
        -- apply se_same; [discriminate|destruct g; discriminate|]. intros g0 d0 r0 Y. injection Y as <- <- <-. split; [exact F|reflexivity].
        -- rewrite fset_eq. apply se_open. rewrite F. discriminate.
        -- rewrite fset_eq. apply se_open. rewrite F. discriminate.
      * assert (N : l <> l') by (intros ->; rewrite leq_refl in L; discriminate L).
        assert (N1 : forall g0 d0 r0, Running None ((g, OFile l' d) :: r) = Running None ((g0, OFile l d0) :: r0) -> False) by (intros g0 d0 r0 Y; injection Y as _ Y _ _; congruence).
        assert (N2 : forall d0 k0 r0, Running (Some (l', d, O)) r = Running (Some (l, d0, k0)) r0 -> False) by (intros d0 k0 r0 Y; injection Y as Y _ _ _; congruence).
        destruct (s l') as [[|x]|] eqn:F; cbn [fst snd]; [|rewrite (fset_neq _ _ _ _ N)..];
          (apply se_same; [discriminate|first [destruct g; discriminate|intros d0 k0 r0 Y; destruct (N2 _ _ _ Y)]|intros g0 d0 r0 Y; destruct (N1 _ _ _ Y)]).
Qed.

(** *** Octets *)
Definition good (jobs : list (list fop)) (l : loc) (x : bytes) : Prop :=
  forall k b, nth_error x k = Some b -> b = 0%Z \/ exists d, writes jobs l d /\ nth_error d k = Some b.
Definition inv_octets (jobs : list (list fop)) (s0 : fs) (l : loc) (ps : list proc) (s : fs) : Prop :=
  lefts jobs ps /\ (forall x, s l = Some (File x) -> s0 l = Some (File x) \/ good jobs l x) /\
  (forall d k r, In (Running (Some (l, d, k)) r) ps -> exists x, s l = Some (File x) /\ good jobs l x).

Lemma left_cur : forall jobs ps l d k r, lefts jobs ps -> In (Running (Some (l, d, k)) r) ps -> writes jobs l d.
Proof.
  intros jobs ps l d k r L H. apply In_nth_error in H as (i & H). destruct (lefts_nth _ _ _ _ L H) as (j & J & (_ & C)).
  destruct (C _ _ _ eq_refl) as (g & G). exists j, g. split; [eapply nth_error_In, J|exact G].
Qed.
Lemma left_head : forall jobs ps i g l d r, lefts jobs ps -> nth_error ps i = Some (Running None ((g, OFile l d) :: r)) -> writes jobs l d.
Proof.
  intros jobs ps i g l d r L H. destruct (lefts_nth _ _ _ _ L H) as (j & J & ((a & ->) & _)).
  eexists _, g. split; [eapply nth_error_In, J|]. apply in_or_app. right. now left.
Qed.

Lemma part_nth : forall (d : bytes) k part t j, skipn k d = part ++ t -> (k <= j < k + List.length part)%nat -> nth_error part (j - k) = nth_error d j.
Proof.
  intros d k part t j E H. assert (X : forall (l : bytes) n m, nth_error (skipn n l) m = nth_error l (n + m)).
  { induction l as [|y l IH]; intros [|n] m; try reflexivity; [destruct m; reflexivity|]. cbn. apply IH. }
  specialize (X d k (j - k)%nat). rewrite E, nth_error_app1 in X by lia. rewrite X. f_equal. lia.
Qed.

Lemma octets_step : forall jobs s0 l ps s i n p, inv_octets jobs s0 l ps s -> nth_error ps i = Some p ->
  inv_octets jobs s0 l (set_nth i (fst (proc_step n p s)) ps) (snd (proc_step n p s)).
Proof.
  intros jobs s0 l ps s i n p (L & A & B) E. split; [now apply lefts_step|]. assert (S := step_seen l s n p).
  assert (IP := nth_error_In _ _ E).
  destruct (proc_step n p s) as (p' & s'). cbn [fst snd] in *. destruct S as [p p' N N' _|v|g r H|g d r H|d k r part x H NE (t & T)|d k r k' H|d k r H].
  - split; [exact A|]. intros d k r I. apply In_set_nth in I as [I|I]; [destruct (N' _ _ _ (eq_sym I))|eapply B, I].
  - split; [exact A|]. intros d k r I. apply In_set_nth in I as [I|I]; [discriminate I|eapply B, I].
  - split; [discriminate|]. intros d k r0 I. apply In_set_nth in I as [I|I]; [discriminate I|]. destruct (B _ _ _ I) as (x & X & _). destruct (H _ X).
  - assert (G : good jobs l []) by (intros [|k] b X; discriminate X).
    split; [intros x X; injection X as <-; right; exact G|]. intros; exists []; split; [reflexivity|exact G].
  - assert (W := left_cur _ _ _ _ _ _ L IP). destruct (B _ _ _ IP) as (x' & X & G). rewrite H in X. injection X as <-.
    assert (G' : good jobs l (overlay k part x)).
    { intros j b J. rewrite nth_overlay in J. destruct (Nat.ltb_spec j k).
      - destruct (Nat.ltb j (List.length x)); [exact (G _ _ J)|injection J as <-; now left].
      - destruct (Nat.ltb_spec j (k + List.length part)); [|exact (G _ _ J)]. right. exists d. split; [exact W|].
        rewrite <- J. symmetry. eapply part_nth; [exact T|lia]. }
    split; [intros y Y; injection Y as <-; right; exact G'|]. intros; eexists; split; [reflexivity|exact G'].
  - destruct (B _ _ _ IP) as (x & X & _). destruct (H _ X).
  - split; [exact A|]. intros d0 k0 r0 I. apply In_set_nth in I as [I|I]; [discriminate I|eapply B, I].
Qed.
Lemma start_running : forall jobs (l : loc) d k r, ~ In (Running (Some (l, d, k)) r) (map (Running None) jobs).
Proof. intros jobs l d k r H. apply in_map_iff in H as (j & H & _). discriminate H. Qed.
Lemma octets : forall jobs sched s l x, snd (conc_run jobs sched s) l = Some (File x) -> s l = Some (File x) \/ good jobs l x.
Proof.
  intros jobs sched s l x H. refine (proj1 (proj2 (conc_inv (inv_octets jobs s l) _ sched _ s _)) x H).
  - intros. now apply octets_step.
  - split; [apply lefts_start|]. split; [auto|]. intros d k r I. destruct (start_running _ _ _ _ _ I).
Qed.

(** *** Places nobody writes to *)
Lemma others : forall jobs sched s l, (forall d, ~ writes jobs l d) ->
  forall x, snd (conc_run jobs sched s) l = Some (File x) <-> s l = Some (File x).
Proof.
  intros jobs sched s0 l N. refine (proj2 (conc_inv (fun ps s => lefts jobs ps /\ forall x, s l = Some (File x) <-> s0 l = Some (File x)) _ sched _ s0 _)).
  - intros ps s i n p (L & A) E. split; [now apply lefts_step|]. assert (S := step_seen l s n p). assert (IP := nth_error_In _ _ E).
    destruct (proc_step n p s) as (p' & s'). cbn [fst snd] in *. destruct S as [p p' _ _ _|v|g r H|g d r H|d k r part x H NE (t & T)|d k r k' H|d k r H]; try exact A.
    + intros x. split; [discriminate|]. intros X. apply A in X. destruct (H _ X).
    + destruct (N d). eapply left_head; eassumption.
    + destruct (N d). eapply left_cur; eassumption.
  - split; [apply lefts_start|]. reflexivity.
Qed.
