(** The validation loop. *)
From Coq Require Import String Lia Permutation.
From Verif.Model Require Import Base Str Paths Validator Cache Octo.
From Verif.Spec Require Import PathSpec OctoSpec.
From Verif.Proofs Require Import StrProofs PathProofs.

Lemma key_in_spec : forall k l, key_in k l = true <-> In k l.
Proof.
  intros k l. unfold key_in. rewrite existsb_exists. split.
  - intros (x & H & E). apply beq_eq in E. subst x. exact H.
  - intros H. exists k. split; [exact H|apply beq_refl].
Qed.

Lemma add_key_in : forall l k x, In x (add_key l k) <-> In x l \/ x = k.
Proof.
  intros l k x. unfold add_key. destruct (key_in k l) eqn:E.
  - apply key_in_spec in E. split; [auto|intros [H|H]; [exact H|subst; exact E]].
  - rewrite in_app_iff. cbn [In]. intuition.
Qed.

Lemma add_key_nodup : forall l k, NoDup l -> NoDup (add_key l k).
Proof.
  intros l k H. unfold add_key. destruct (key_in k l) eqn:E; [exact H|].
  eapply Permutation_NoDup; [apply Permutation_cons_append|]. constructor; [|exact H].
  intros I. apply key_in_spec in I. congruence.
Qed.

Lemma add_keys_in : forall f l x, In x (fold_left add_key f l) <-> In x l \/ In x f.
Proof.
  induction f as [|k f IH]; intros l x; cbn [fold_left In]; [intuition|].
  rewrite IH, add_key_in. intuition.
Qed.

Lemma add_keys_nodup : forall f l, NoDup l -> NoDup (fold_left add_key f l).
Proof. induction f as [|k f IH]; intros l H; cbn [fold_left]; [exact H|]. apply IH, add_key_nodup, H. Qed.

Lemma nodup_app : forall A (a b : list A), NoDup a -> NoDup b -> (forall x, In x a -> In x b -> False) -> NoDup (a ++ b).
Proof.
  induction a as [|x a IH]; intros b Ha Hb H; cbn [app]; [exact Hb|].
  inversion Ha; subst. constructor.
  - rewrite in_app_iff. intros [G|G]; [contradiction|]. apply (H x); [left; reflexivity|exact G].
  - apply IH; [assumption|assumption|]. intros y G1 G2. apply (H y); [right; exact G1|exact G2].
Qed.

Lemma reduce_spec : forall prev cur, NoDup prev -> NoDup cur -> incl prev cur ->
  NoDup (fst (main_reduce prev cur)) /\ (forall x, In x (fst (main_reduce prev cur)) <-> In x cur) /\
  (snd (main_reduce prev cur) = false <-> incl cur prev).
Proof.
  intros prev cur N1 N2 I. unfold main_reduce. cbv zeta. cbn [fst snd].
  set (news := filter (fun k => negb (key_in k prev)) cur).
  assert (Hn : forall x, In x news <-> In x cur /\ ~ In x prev).
  { intros x. unfold news. rewrite filter_In, negb_true_iff. rewrite <- (key_in_spec x prev).
    destruct (key_in x prev); intuition congruence. }
  assert (D : NoDup (prev ++ news)).
  { apply nodup_app; [exact N1|apply NoDup_filter; exact N2|]. intros x G1 G2. apply Hn in G2. tauto. }
  assert (S : forall x, In x (prev ++ news) <-> In x cur).
  { intros x. rewrite in_app_iff, Hn. split; [intros [G|[G _]]; auto|].
    intros G. destruct (key_in x prev) eqn:E; [left; apply key_in_spec; exact E|right; split; [exact G|]].
    intros G'. apply key_in_spec in G'. congruence. }
  split; [exact D|]. split; [exact S|].
  assert (L : length (prev ++ news) = length cur).
  { apply Permutation_length. apply NoDup_Permutation; assumption. }
  rewrite L, Nat.eqb_refl. cbn [negb orb]. split.
  - intros E x G. destruct (key_in x prev) eqn:K; [apply key_in_spec; exact K|].
    assert (In x news). { apply Hn. split; [exact G|]. intros G'. apply key_in_spec in G'. congruence. }
    destruct news; [contradiction|discriminate].
  - intros G. destruct news as [|x r] eqn:E; [reflexivity|].
    destruct (proj1 (Hn x) (or_introl eq_refl)) as [G1 G2]. destruct (G2 (G _ G1)).
Qed.

(** After the validations [l]. *)
Record linv (c : lcfg) (l : list (list bytes)) (s : lstate) : Prop := {
  li_iter : l_iter s = Z.of_nat (length l);
  li_until : 0 <= l_until s <= l_iter s;
  li_stable : l_stable s = false;
  li_dup : NoDup (l_prev s) /\ NoDup (l_cur s);
  li_prev : forall k, In k (l_prev s) <-> known l k;
  li_cur : forall k, In k (l_cur s) <-> known l k;
  li_has : l_hasprev s = true -> exists a f, l = a ++ [f] /\ quiet a f }.

Lemma known_app : forall l f k, known (l ++ [f]) k <-> known l k \/ In k f.
Proof.
  intros l f k. unfold known. split.
  - intros (g & H & G). apply in_app_or in H. destruct H as [H|[<-|[]]]; [left; exists g; auto|auto].
  - intros [(g & H & G)|G]; [exists g|exists f]; split; auto; apply in_or_app; [left|right; left]; auto.
Qed.

Lemma linv_start : forall c, linv c [] lstart.
Proof.
  intros c. constructor; cbn; try reflexivity; try lia; try (split; constructor).
  1, 2: intros k; split; [intros []|intros (f & [] & _)].
Qed.

(** The test of line 1567. *)
Definition stable1 (c : lcfg) (f : list bytes) (s : lstate) : bool :=
  negb (snd (main_reduce (l_prev s) (fold_left add_key f (l_cur s)))) && (1 <? l_iter s + 1).
Definition until1 (s : lstate) : Z := (if l_active s then l_until s else 0) + 1.
Definition forced (c : lcfg) (s : lstate) : bool := l_max c <? until1 s.

Lemma stable1_spec : forall c l s f, linv c l s -> stable1 c f s = true <-> quiet l f.
Proof.
  intros c l s f [I U S [D1 D2] P C H]. unfold stable1.
  destruct (reduce_spec (l_prev s) (fold_left add_key f (l_cur s)) D1 (add_keys_nodup _ _ D2)) as (_ & _ & R).
  { intros x G. apply add_keys_in. left. apply C, P, G. }
  rewrite andb_true_iff, negb_true_iff, R. unfold quiet. split.
  - intros [G1 G2]. apply Z.ltb_lt in G2. split; [intros ->; cbn in I; lia|].
    intros k G. apply P, G1, add_keys_in. right. exact G.
  - intros [G1 G2]. split.
    + intros x G. apply add_keys_in in G. apply P. destruct G as [G|G]; [apply C, G|apply G2, G].
    + apply Z.ltb_lt. destruct l; [congruence|]. cbn [length] in I. lia.
Qed.

Lemma pass_eq : forall c f s, loop_pass c f s =
  let s1 := stable1 c f s in
  let s2 := forced c s || s1 in
  let prev := fst (main_reduce (l_prev s) (fold_left add_key f (l_cur s))) in
  let cur := fold_left add_key f (l_cur s) in
  let tr := [Obs (l_stable s) (l_hasprev s); Validated f; Obs s1 (l_hasprev s); Obs s1 s1] ++
            (if l_oneoff c && (s1 || negb (l_wait c)) then [Output] else []) ++ [Obs s2 s1] in
  if l_oneoff c && s2 then (tr, true, mkLstate (l_iter s + 1) (until1 s) true s2 s1 prev cur)
  else if s2 then (tr ++ [Obs false s1], false, mkLstate (l_iter s + 1) (until1 s) false false s1 prev cur)
  else (tr, false, mkLstate (l_iter s + 1) (until1 s) true s2 s1 prev cur).
Proof.
  intros c f s. unfold loop_pass, stable1, forced, until1.
  destruct (main_reduce (l_prev s) (fold_left add_key f (l_cur s))) as [prev ch]. cbn [fst snd]. reflexivity.
Qed.

Lemma linv_pass : forall c l s f tr s', linv c l s -> loop_pass c f s = (tr, false, s') -> linv c (l ++ [f]) s'.
Proof.
  intros c l s f tr s' I E. pose proof (stable1_spec c l s f I) as Q. rewrite pass_eq in E. cbv zeta in E.
  destruct I as [I U S [D1 D2] P C H].
  destruct (reduce_spec (l_prev s) (fold_left add_key f (l_cur s)) D1 (add_keys_nodup _ _ D2)) as (R1 & R2 & _).
  { intros x G. apply add_keys_in. left. apply C, P, G. }
  assert (K : forall k, In k (fold_left add_key f (l_cur s)) <-> known (l ++ [f]) k).
  { intros k. rewrite add_keys_in, C, known_app. reflexivity. }
  assert (U1 : 0 <= until1 s <= l_iter s + 1).
  { unfold until1. destruct (l_active s); lia. }
  assert (L : l_iter s + 1 = Z.of_nat (length (l ++ [f]))).
  { rewrite app_length. cbn [length]. lia. }
  destruct (l_oneoff c && (forced c s || stable1 c f s)); [discriminate|].
  destruct (forced c s || stable1 c f s) eqn:F; injection E as <- <-;
  constructor; cbn [l_iter l_until l_stable l_prev l_cur l_hasprev]; auto.
  1, 4: split; [exact R1|apply add_keys_nodup; exact D2].
  1, 3: intros k; rewrite R2; apply K.
  1, 2: intros G; exists l, f; split; [reflexivity|apply Q, G].
Qed.

(** The trace of a run, pass by pass. *)
Inductive passes (c : lcfg) : list (list bytes) -> lstate -> list lev -> bool -> lstate -> Prop :=
| pa_nil s : passes c [] s [] false s
| pa_end f r s tr s' : loop_pass c f s = (tr, true, s') -> passes c (f :: r) s tr true s'
| pa_more f r s tr s' tr' e s'' : loop_pass c f s = (tr, false, s') -> passes c r s' tr' e s'' ->
    passes c (f :: r) s (tr ++ tr') e s''.

Lemma run_passes : forall c l s tr e s', loop_run c l s = (tr, e, s') -> passes c l s tr e s'.
Proof.
  intros c. induction l as [|f l IH]; intros s tr e s' E; cbn [loop_run] in E.
  - injection E as <- <- <-. constructor.
  - destruct (loop_pass c f s) as [[tr1 [|]] s1] eqn:P.
    + injection E as <- <- <-. apply pa_end. exact P.
    + destruct (loop_run c l s1) as [[tr2 e2] s2] eqn:R. injection E as <- <- <-.
      eapply pa_more; [exact P|]. apply IH. exact R.
Qed.

Lemma validations_app : forall a b, validations (a ++ b) = validations a ++ validations b.
Proof. intros. apply flat_map_app. Qed.

Lemma pass_validations : forall c f s tr e s', loop_pass c f s = (tr, e, s') -> validations tr = [f].
Proof.
  intros c f s tr e s' E. rewrite pass_eq in E. cbv zeta in E.
  destruct (l_oneoff c && (forced c s || stable1 c f s)); [|destruct (forced c s || stable1 c f s)];
  injection E as <- _ _; destruct (l_oneoff c && (stable1 c f s || negb (l_wait c))); reflexivity.
Qed.

(** Where an observation stands in the trace of a pass. *)
Lemma pass_obs : forall c f s tr e s' a x y b, loop_pass c f s = (tr, e, s') -> tr = a ++ Obs x y :: b ->
  (a = [] /\ x = l_stable s /\ y = l_hasprev s) \/
  (validations a = [f] /\
    ((x = stable1 c f s /\ (y = l_hasprev s \/ y = stable1 c f s)) \/
     (x = forced c s || stable1 c f s /\ y = stable1 c f s) \/
     (x = false /\ y = stable1 c f s /\ forced c s || stable1 c f s = true))).
Proof.
  intros c f s tr e s' a x y b E T. rewrite pass_eq in E. cbv zeta in E.
  assert (G : exists o fin, tr = Obs (l_stable s) (l_hasprev s) :: Validated f :: Obs (stable1 c f s) (l_hasprev s) ::
     Obs (stable1 c f s) (stable1 c f s) :: o ++ Obs (forced c s || stable1 c f s) (stable1 c f s) :: fin /\
     (o = [] \/ o = [Output]) /\
     (fin = [] \/ fin = [Obs false (stable1 c f s)] /\ forced c s || stable1 c f s = true)).
  { exists (if l_oneoff c && (stable1 c f s || negb (l_wait c)) then [Output] else []).
    destruct (l_oneoff c && (forced c s || stable1 c f s)); [|destruct (forced c s || stable1 c f s)];
    injection E as <- _ _; eexists; (split; [cbn [app]; rewrite ?app_assoc_reverse; cbn [app]; reflexivity|]);
    (split; [destruct (l_oneoff c && (stable1 c f s || negb (l_wait c))); auto|]); auto. }
  destruct G as (o & fin & -> & Ho & Hf). clear E.
  destruct a as [|a1 a]; [injection T as E1 E2 _; left; auto|]. right.
  injection T as <- T. destruct a as [|a2 a]; [discriminate|]. injection T as <- T.
  destruct a as [|a3 a]; [injection T as <- <- _; split; [reflexivity|left; auto]|]. injection T as <- T.
  destruct a as [|a4 a]; [injection T as <- <- _; split; [reflexivity|left; auto]|]. injection T as <- T.
  assert (K : validations a = [] /\ ((x = forced c s || stable1 c f s /\ y = stable1 c f s) \/
     (x = false /\ y = stable1 c f s /\ forced c s || stable1 c f s = true))).
  { destruct Ho as [Ho|Ho]; subst o; cbn [app] in T.
    - destruct a as [|a5 a]; [injection T as <- <- _; auto|]. injection T as <- T.
      destruct Hf as [Hf|[Hf Hs]]; rewrite Hf in T; [destruct a; discriminate|].
      destruct a as [|a6 a]; [injection T as <- <- _; auto|]. destruct a; discriminate.
    - destruct a as [|a5 a]; [discriminate|]. injection T as <- T.
      destruct a as [|a6 a]; [injection T as <- <- _; auto|]. injection T as <- T.
      destruct Hf as [Hf|[Hf Hs]]; rewrite Hf in T; [destruct a; discriminate|].
      destruct a as [|a7 a]; [injection T as <- <- _; auto|]. destruct a; discriminate. }
  destruct K as [K1 K2]. split; [|right; exact K2].
  change (validations (Obs (l_stable s) (l_hasprev s) :: Validated f :: Obs (stable1 c f s) (l_hasprev s) ::
     Obs (stable1 c f s) (stable1 c f s) :: a)) with (f :: validations a). rewrite K1. reflexivity.
Qed.

(** The position of something in a concatenation. *)
Lemma app_cut : forall A (t1 t2 a b : list A) x, t1 ++ t2 = a ++ x :: b ->
  (exists b1, t1 = a ++ x :: b1 /\ b = b1 ++ t2) \/ (exists a2, a = t1 ++ a2 /\ t2 = a2 ++ x :: b).
Proof.
  induction t1 as [|y t1 IH]; intros t2 a b x E; cbn [app] in E.
  - right. exists a. auto.
  - destruct a as [|z a]; cbn [app] in E.
    + injection E as -> <-. left. exists t1. auto.
    + injection E as -> E. destruct (IH _ _ _ _ E) as [(b1 & -> & ->)|(a2 & -> & ->)].
      * left. exists b1. auto.
      * right. exists a2. auto.
Qed.

(** *** The list is served only after a stable validation *)


Lemma pass_served_only : forall c f s l0 tr e s', l_wait c = true -> linv c l0 s -> loop_pass c f s = (tr, e, s') ->
  forall a x y b, tr = a ++ Obs x y :: b -> served c x y = true -> earlier_stable c (l0 ++ validations a).
Proof.
  intros c f s l0 tr e s' W I E a x y b T V.
  assert (X : x = true \/ y = true).
  { unfold served in V. rewrite W in V. destruct x; [auto|]. destruct y; [auto|]. discriminate. }
  clear V. pose proof (stable1_spec c l0 s f I) as Q. destruct I as [I U S D P C H].
  assert (Has : l_hasprev s = true -> forall r, earlier_stable c (l0 ++ r)).
  { intros G r. destruct (H G) as (a1 & f1 & -> & G1). left. exists a1, f1, r.
    rewrite app_assoc_reverse. auto. }
  assert (Q1 : stable1 c f s = true -> earlier_stable c (l0 ++ [f])).
  { intros G. left. exists l0, f, []. split; [reflexivity|apply Q, G]. }
  assert (F1 : forced c s = true -> earlier_stable c (l0 ++ [f])).
  { intros G. right. rewrite app_length. cbn [length]. unfold forced, until1 in G. apply Z.ltb_lt in G.
    destruct (l_active s); lia. }
  destruct (pass_obs _ _ _ _ _ _ _ _ _ _ E T) as [(-> & -> & ->)|(-> & [[Ex Ey]|[[Ex Ey]|(Ex & Ey & _)]])].
  - destruct X as [X|X]; [congruence|]. apply (Has X).
  - destruct X as [X|X]; [apply Q1; congruence|]. destruct Ey as [Ey|Ey]; [apply Has|apply Q1]; congruence.
  - destruct (stable1 c f s); [apply Q1; reflexivity|]. rewrite orb_false_r in Ex.
    destruct X as [X|X]; [apply F1|]; congruence.
  - destruct X as [X|X]; [congruence|apply Q1; congruence].
Qed.

Lemma served_only_aux : forall c l s tr e s', passes c l s tr e s' -> l_wait c = true -> forall l0, linv c l0 s ->
  forall a x y b, tr = a ++ Obs x y :: b -> served c x y = true -> earlier_stable c (l0 ++ validations a).
Proof.
  intros c l s tr e s' H W. induction H as [s|f r s tr s' E|f r s tr s' tr' e s'' E H IH]; intros l0 I a x y b T V.
  - destruct a; discriminate.
  - eapply pass_served_only; eauto.
  - destruct (app_cut _ _ _ _ _ _ T) as [(b1 & T1 & _)|(a2 & -> & T2)].
    + eapply pass_served_only; eauto.
    + rewrite validations_app, (pass_validations _ _ _ _ _ _ E), app_assoc.
      eapply IH; [eapply linv_pass; eauto|exact T2|exact V].
Qed.

Theorem served_only : forall c l tr e s a x y b, l_wait c = true ->
  loop_run c l lstart = (tr, e, s) -> tr = a ++ Obs x y :: b -> served c x y = true ->
  earlier_stable c (validations a).
Proof.
  intros c l tr e s a x y b W E T V. apply run_passes in E.
  exact (served_only_aux _ _ _ _ _ _ E W [] (linv_start c) a x y b T V).
Qed.

(** The validations of the trace are those of the input, up to the end. *)
Lemma passes_validations : forall c l s tr e s', passes c l s tr e s' -> exists r, l = validations tr ++ r /\ (e = false -> r = []).
Proof.
  intros c l s tr e s' H. induction H as [s|f r s tr s' E|f r s tr s' tr' e s'' E H IH].
  - exists []. auto.
  - exists r. rewrite (pass_validations _ _ _ _ _ _ E). split; [reflexivity|discriminate].
  - destruct IH as (r' & IH & G). exists r'. rewrite validations_app, (pass_validations _ _ _ _ _ _ E).
    cbn [app]. rewrite <- IH. auto.
Qed.

(** *** It stays served while the validations are quiet *)

Lemma pass_stays : forall c f s l0 tr e s', linv c l0 s -> quiet l0 f ->
  loop_pass c f s = (tr, e, s') ->
  forall a g b, tr = a ++ Validated g :: b ->
  (forall x y, In (Obs x y) b -> served c x y = true) /\ l_hasprev s' = true.
Proof.
  intros c f s l0 tr e s' I Qf E a g b T. apply (stable1_spec c l0 s f I) in Qf.
  rewrite pass_eq in E. cbv zeta in E. rewrite Qf, orb_true_r in E.
  assert (G : b = [Obs true (l_hasprev s); Obs true true] ++ (if l_oneoff c && (true || negb (l_wait c)) then [Output] else [])
      ++ [Obs true true] ++ (if l_oneoff c then [] else [Obs false true]) /\ l_hasprev s' = true).
  { destruct (l_oneoff c); cbn [orb andb app] in *; injection E as E1 _ <-; (split; [|reflexivity]);
    rewrite <- E1 in T; (destruct a as [|a1 a]; [discriminate|]); injection T as _ T;
    (destruct a as [|a2 a]; [injection T as _ <-; reflexivity|]); injection T as _ T;
    repeat (destruct a as [|? a]; [discriminate|]; injection T as _ T); destruct a; discriminate. }
  destruct G as [-> G]. split; [|exact G]. clear.
  intros x y H. unfold served. destruct (l_oneoff c), (l_wait c); cbn in H; intuition;
    match goal with H : Obs _ _ = Obs _ _ |- _ => injection H as <- <- end; destruct (l_hasprev s); reflexivity.
Qed.

Lemma pass_served_again : forall c f s l0 tr e s', linv c l0 s -> quiet l0 f -> l_hasprev s = true ->
  loop_pass c f s = (tr, e, s') ->
  (forall x y, In (Obs x y) tr -> served c x y = true) /\ l_hasprev s' = true.
Proof.
  intros c f s l0 tr e s' I Qf Hs E.
  assert (T : exists b, tr = [Obs (l_stable s) (l_hasprev s)] ++ Validated f :: b).
  { rewrite pass_eq in E. cbv zeta in E. destruct (l_oneoff c && (forced c s || stable1 c f s)); [|destruct (forced c s || stable1 c f s)];
    injection E as <- _ _; eexists; reflexivity. }
  destruct T as (b & ->). destruct (pass_stays _ _ _ _ _ _ _ I Qf E _ _ _ eq_refl) as [G1 G2].
  split; [|exact G2]. intros x y [G|[G|G]]; [|discriminate|exact (G1 x y G)].
  injection G as <- <-. rewrite Hs. unfold served. destruct (l_stable s), (l_wait c); reflexivity.
Qed.

Definition all_quiet (l0 l : list (list bytes)) : Prop := forall a f b, l = a ++ f :: b -> quiet (l0 ++ a) f.

Lemma all_quiet_step : forall l0 f l, all_quiet l0 (f :: l) -> quiet l0 f /\ all_quiet (l0 ++ [f]) l.
Proof.
  intros l0 f l H. split.
  - specialize (H [] f l eq_refl). rewrite app_nil_r in H. exact H.
  - intros a g b ->. rewrite app_assoc_reverse. apply (H (f :: a) g b). reflexivity.
Qed.

Lemma all_served : forall c l s tr e s', passes c l s tr e s' -> forall l0, linv c l0 s -> all_quiet l0 l ->
  l_hasprev s = true -> forall x y, In (Obs x y) tr -> served c x y = true.
Proof.
  intros c l s tr e s' H. induction H as [s|f r s tr s' E|f r s tr s' tr' e s'' E H IH]; intros l0 I Qa Hs x y G.
  - destruct G.
  - apply all_quiet_step in Qa. destruct Qa as [Qf Qa]. eapply pass_served_again; eauto.
  - apply all_quiet_step in Qa. destruct Qa as [Qf Qa].
    destruct (pass_served_again _ _ _ _ _ _ _ I Qf Hs E) as [G1 G2].
    apply in_app_or in G. destruct G as [G|G]; [exact (G1 _ _ G)|].
    eapply IH; [eapply linv_pass; eauto|exact Qa|exact G2|exact G].
Qed.

Lemma stays_aux : forall c l s tr e s', passes c l s tr e s' -> forall l0, linv c l0 s ->
  forall a f b, tr = a ++ Validated f :: b -> all_quiet (l0 ++ validations a) (skipn (length (validations a)) l) ->
  forall x y, In (Obs x y) b -> served c x y = true.
Proof.
  intros c l s tr e s' H. induction H as [s|f r s tr s' E|f r s tr s' tr' e s'' E H IH]; intros l0 I a g b T Qa x y G.
  - destruct a; discriminate.
  - pose proof (pass_validations _ _ _ _ _ _ E) as V. rewrite T, validations_app in V.
    change (validations (Validated g :: b)) with (g :: validations b) in V.
    destruct (validations a) as [|v va]; [|cbn [app] in V; injection V as _ V; destruct va; discriminate].
    injection V as -> V. rewrite app_nil_r in Qa. cbn [length skipn] in Qa. apply all_quiet_step in Qa. destruct Qa as [Qf _].
    destruct (pass_stays _ _ _ _ _ _ _ I Qf E _ _ _ T) as [G1 _]. exact (G1 _ _ G).
  - pose proof (pass_validations _ _ _ _ _ _ E) as V.
    destruct (app_cut _ _ _ _ _ _ T) as [(b1 & T1 & ->)|(a2 & -> & T2)].
    + rewrite T1, validations_app in V.
      change (validations (Validated g :: b1)) with (g :: validations b1) in V.
      destruct (validations a) as [|v va]; [|cbn [app] in V; injection V as _ V; destruct va; discriminate].
      injection V as -> V. rewrite app_nil_r in Qa. cbn [length skipn] in Qa. apply all_quiet_step in Qa. destruct Qa as [Qf Qa].
      destruct (pass_stays _ _ _ _ _ _ _ I Qf E _ _ _ T1) as [G1 G2].
      apply in_app_or in G. destruct G as [G|G]; [exact (G1 _ _ G)|].
      eapply all_served; [exact H|eapply linv_pass; eauto|exact Qa|exact G2|exact G].
    + rewrite validations_app, V in Qa. cbn [app length skipn] in Qa.
      eapply IH; [eapply linv_pass; eauto|exact T2| |exact G].
      rewrite app_assoc_reverse. exact Qa.
Qed.

Theorem stays_served : forall c l tr e s a f b, loop_run c l lstart = (tr, e, s) -> tr = a ++ Validated f :: b ->
  (forall l1 g l2, l = l1 ++ g :: l2 -> (length (validations a) <= length l1)%nat -> quiet l1 g) ->
  forall x y, In (Obs x y) b -> served c x y = true.
Proof.
  intros c l tr e s a f b E T Q. apply run_passes in E.
  apply (stays_aux _ _ _ _ _ _ E [] (linv_start c) a f b T). cbn [app].
  destruct (passes_validations _ _ _ _ _ _ E) as (r & Hl & _).
  rewrite T, validations_app in Hl. rewrite app_assoc_reverse in Hl.
  intros l1 g l2 G. apply (Q (validations a ++ l1) g l2); [|rewrite app_length; lia].
  rewrite Hl in G. rewrite skipn_app, skipn_all, Nat.sub_diag in G. cbn [app skipn] in G.
  rewrite Hl, G, app_assoc_reverse. reflexivity.
Qed.

(** *** When a validation is declared stable *)

Lemma pass_declared : forall c f s l0 tr e s', linv c l0 s -> loop_pass c f s = (tr, e, s') ->
  ((exists h, In (Obs true h) tr) <-> quiet l0 f \/ l_max c < until1 s) /\
  (l_hasprev s' = true <-> quiet l0 f).
Proof.
  intros c f s l0 tr e s' I E. rewrite <- (stable1_spec c l0 s f I).
  assert (F : l_max c < until1 s <-> forced c s = true) by (unfold forced; rewrite Z.ltb_lt; tauto). rewrite F.
  destruct I as [_ _ S _ _ _ _]. rewrite pass_eq in E. cbv zeta in E. rewrite S in E.
  destruct (stable1 c f s), (forced c s), (l_oneoff c), (l_wait c); cbn in E; injection E as <- _ <-; cbn;
  (split; [split; [intros (h & G)|intros G]|split; intros G]); try discriminate; try reflexivity; auto;
  try (destruct G as [G|G]; discriminate);
  try (repeat (destruct G as [G|G]; try discriminate); contradiction);
  first [exists true; solve [auto 10]|exists false; solve [auto 10]|exists (l_hasprev s); solve [auto 10]].
Qed.

Lemma run_app : forall c a b s tr s1, loop_run c a s = (tr, false, s1) ->
  loop_run c (a ++ b) s = (let '(tr', e, s2) := loop_run c b s1 in (tr ++ tr', e, s2)).
Proof.
  intros c. induction a as [|f a IH]; intros b s tr s1 E; cbn [app loop_run] in *.
  - injection E as <- <-. destruct (loop_run c b s) as [[? ?] ?]. reflexivity.
  - destruct (loop_pass c f s) as [[t [|]] s2]; [discriminate|].
    destruct (loop_run c a s2) as [[t2 e2] s3] eqn:R. injection E as <- -> <-.
    rewrite (IH b _ _ _ R). destruct (loop_run c b s3) as [[? ?] ?]. rewrite app_assoc. reflexivity.
Qed.

Lemma linv_run : forall c l s tr s' l0, linv c l0 s -> loop_run c l s = (tr, false, s') -> linv c (l0 ++ l) s'.
Proof.
  intros c. induction l as [|f l IH]; intros s tr s' l0 I E; cbn [loop_run] in E.
  - injection E as <- <-. rewrite app_nil_r. exact I.
  - destruct (loop_pass c f s) as [[t [|]] s1] eqn:P; [discriminate|].
    destruct (loop_run c l s1) as [[t2 e2] s2] eqn:R. injection E as <- -> <-.
    change (f :: l) with ([f] ++ l). rewrite app_assoc. eapply IH; [eapply linv_pass; eauto|exact R].
Qed.

(** A pass that is not declared stable. *)
Lemma pass_plain : forall c f s tr e s', loop_pass c f s = (tr, e, s') -> (forall h, ~ In (Obs true h) tr) ->
  e = false /\ until1 s <= l_max c /\ l_active s' = true /\ l_until s' = until1 s.
Proof.
  intros c f s tr e s' E N. rewrite pass_eq in E. cbv zeta in E.
  destruct (forced c s || stable1 c f s) eqn:D.
  - exfalso. rewrite andb_true_r in E. apply (N (stable1 c f s)).
    destruct (l_oneoff c); injection E as <- _ _; cbn [app].
    + do 4 right. apply in_or_app. right. left. reflexivity.
    + do 4 right. left. reflexivity.
  - rewrite andb_false_r in E. injection E as _ <- <-. apply orb_false_iff in D. destruct D as [D _].
    apply Z.ltb_ge in D. auto.
Qed.

Lemma run_plain : forall c l s tr e s', loop_run c l s = (tr, e, s') -> (forall h, ~ In (Obs true h) tr) -> 0 <= l_until s ->
  e = false /\
  (l <> [] -> l_active s' = true /\ Z.of_nat (length l) <= l_until s' <= l_max c).
Proof.
  intros c l. enough (G : forall s tr e s', loop_run c l s = (tr, e, s') -> (forall h, ~ In (Obs true h) tr) ->
    e = false /\ (l <> [] -> l_active s' = true /\
      l_until s' = (if l_active s then l_until s else 0) + Z.of_nat (length l) /\ l_until s' <= l_max c)).
  { intros s tr e s' E N U. destruct (G _ _ _ _ E N) as [G1 G2]. split; [exact G1|]. intros Hl.
    destruct (G2 Hl) as (G3 & G4 & G5). split; [exact G3|]. destruct (l_active s); lia. }
  induction l as [|f l IH]; intros s tr e s' E N; cbn [loop_run] in E.
  - injection E as <- <- <-. split; [reflexivity|congruence].
  - destruct (loop_pass c f s) as [[t e1] s1] eqn:P.
    assert (N1 : forall h, ~ In (Obs true h) t).
    { intros h G. apply (N h). destruct e1; [injection E as <- _ _; exact G|].
      destruct (loop_run c l s1) as [[t2 e2] s2]. injection E as <- _ _. apply in_or_app. left. exact G. }
    destruct (pass_plain _ _ _ _ _ _ P N1) as (-> & P2 & P3 & P4).
    destruct (loop_run c l s1) as [[t2 e2] s2] eqn:R. injection E as <- -> <-.
    destruct (IH _ _ _ _ R) as [G1 G2]; [intros h G; apply (N h), in_or_app; right; exact G|].
    split; [exact G1|]. intros _. destruct l as [|g l].
    + cbn in R. injection R as <- <- <-. split; [exact P3|]. rewrite P4. unfold until1 in *. cbn [length]. lia.
    + destruct (G2 ltac:(discriminate)) as (G3 & G4 & G5). split; [exact G3|]. rewrite P3, P4 in G4.
      unfold until1 in G4. rewrite G4 in *. cbn [length] in *. lia.
Qed.

(** Among more than [l_max] passes one is declared stable. *)
Theorem bounded : forall c a b tr s tr' e s', loop_run c a lstart = (tr, false, s) -> loop_run c b s = (tr', e, s') ->
  b <> [] -> l_max c < Z.of_nat (length b) -> exists h, In (Obs true h) tr'.
Proof.
  intros c a b tr s tr' e s' E1 E2 Hb Hm.
  destruct (existsb (fun e => match e with Obs true _ => true | _ => false end) tr') eqn:X.
  - apply existsb_exists in X. destruct X as ([[|] h|f|] & G1 & G2); try discriminate. exists h. exact G1.
  - exfalso. assert (N : forall h, ~ In (Obs true h) tr').
    { intros h G. assert (true = false) as F; [|discriminate]. rewrite <- X. symmetry. apply existsb_exists. exists (Obs true h). auto. }
    pose proof (linv_run _ _ _ _ _ [] (linv_start c) E1) as [_ U _ _ _ _ _].
    destruct (run_plain _ _ _ _ _ _ E2 N) as [_ G]; [lia|]. destruct (G Hb) as [_ G']. lia.
Qed.

(** A pass that ends the loop. *)
Lemma pass_exit : forall c f s l0 tr s', linv c l0 s -> loop_pass c f s = (tr, true, s') ->
  l_oneoff c = true /\ (In Output tr <-> quiet l0 f \/ l_wait c = false).
Proof.
  intros c f s l0 tr s' I E. rewrite <- (stable1_spec c l0 s f I).
  rewrite pass_eq in E. cbv zeta in E. clear I.
  destruct (l_oneoff c); cbn [andb] in E; [|destruct (forced c s || stable1 c f s); discriminate].
  split; [reflexivity|].
  destruct (forced c s), (stable1 c f s), (l_wait c); cbn in E; try discriminate; injection E as <- _; cbn;
  (split; [intros G; repeat (destruct G as [G|G]; try discriminate); auto; destruct G
    |intros [G|G]; try discriminate; auto 10]).
Qed.

Lemma pass_goes_on : forall c f s l0 tr s', linv c l0 s -> loop_pass c f s = (tr, false, s') ->
  l_oneoff c = true -> ~ quiet l0 f /\ until1 s <= l_max c.
Proof.
  intros c f s l0 tr s' I E O. rewrite <- (stable1_spec c l0 s f I).
  rewrite pass_eq in E. cbv zeta in E. rewrite O in E. cbn [andb] in E.
  destruct (forced c s) eqn:F; [discriminate|]. destruct (stable1 c f s); [discriminate|].
  split; [discriminate|]. apply Z.ltb_ge in F. exact F.
Qed.

(** The one-off mode: it ends after at most [max + 1] passes; the last pass
    decides whether there is output. *)
Lemma exits_run : forall c l s tr e s', passes c l s tr e s' -> e = true -> forall l0, linv c l0 s ->
  l_oneoff c = true /\
  exists a f, validations tr = a ++ [f] /\
    (In Output tr <-> quiet (l0 ++ a) f \/ l_wait c = false).
Proof.
  intros c l s tr e s' H.
  induction H as [s|f r s tr s' E|f r s tr s' tr' e s'' E H IH]; intros He l0 I; [discriminate| |].
  - destruct (pass_exit _ _ _ _ _ _ I E) as [O G]. split; [exact O|]. exists [], f.
    rewrite (pass_validations _ _ _ _ _ _ E), app_nil_r. auto.
  - destruct (IH He _ (linv_pass _ _ _ _ _ _ I E)) as (O & a & g & V & G). split; [exact O|].
    exists (f :: a), g. rewrite validations_app, (pass_validations _ _ _ _ _ _ E), V. split; [reflexivity|].
    rewrite app_assoc_reverse in G. cbn [app] in G. rewrite in_app_iff, G. split; [|auto].
    intros [K|K]; [|exact K]. right. destruct (pass_goes_on _ _ _ _ _ _ I E O) as [K1 _].
    rewrite <- (stable1_spec c l0 s f I) in K1. apply not_true_iff_false in K1.
    rewrite pass_eq in E. cbv zeta in E. rewrite K1, O in E.
    destruct (l_wait c); [|reflexivity]. exfalso.
    destruct (forced c s); cbn in E; [discriminate|]. injection E as <- _. cbn in K.
    repeat (destruct K as [K|K]; try discriminate). exact K.
Qed.

Theorem oneoff_output : forall c l tr s, loop_run c l lstart = (tr, true, s) ->
  l_oneoff c = true /\
  exists a f, validations tr = a ++ [f] /\ (In Output tr <-> quiet a f \/ l_wait c = false).
Proof.
  intros c l tr s E. apply run_passes in E. exact (exits_run _ _ _ _ _ _ E eq_refl [] (linv_start c)).
Qed.

Theorem oneoff_ends : forall c l tr e s, loop_run c l lstart = (tr, e, s) -> l_oneoff c = true ->
  l <> [] -> l_max c < Z.of_nat (length l) -> e = true.
Proof.
  intros c l tr e s E O Hl Hm. destruct e; [reflexivity|exfalso].
  destruct (bounded c [] l [] lstart tr false s eq_refl E Hl Hm) as (h & G).
  apply run_passes in E. remember false as e eqn:He. remember lstart as s0 eqn:Hs.
  assert (I : exists l0, linv c l0 s0) by (exists []; subst; apply linv_start). clear Hs Hl Hm.
  induction E as [s|f r s tr s' E|f r s tr s' tr' e s'' E H IH]; [destruct G|discriminate|].
  destruct I as (l0 & I). apply in_app_or in G. destruct G as [G|G].
  - destruct (pass_goes_on _ _ _ _ _ _ I E O) as [K1 K2].
    destruct (pass_declared _ _ _ _ _ _ _ I E) as [K _]. destruct (proj1 K (ex_intro _ h G)); [contradiction|lia].
  - apply (IH He G). exists (l0 ++ [f]). eapply linv_pass; eauto.
Qed.

(** A sequence of validations each of which finds something new is not declared
    stable before pass [max + 1]. *)

Lemma restless_aux : forall c l s tr e s', passes c l s tr e s' -> forall l0, linv c l0 s ->
  never_quiet (l0 ++ l) -> Z.of_nat (length (l0 ++ l)) <= l_max c -> forall h, ~ In (Obs true h) tr.
Proof.
  intros c l s tr e s' H.
  assert (one : forall f r s l0 tr e s', linv c l0 s -> never_quiet (l0 ++ f :: r) ->
    Z.of_nat (length (l0 ++ f :: r)) <= l_max c -> loop_pass c f s = (tr, e, s') -> forall h, ~ In (Obs true h) tr).
  { clear. intros f r s l0 tr e s' I N L E h G.
    destruct (pass_declared _ _ _ _ _ _ _ I E) as [K _]. destruct (proj1 K (ex_intro _ h G)) as [K1|K1].
    - exact (N _ _ _ eq_refl K1).
    - destruct I as [I1 I2 _ _ _ _ _]. rewrite app_length in L. cbn [length] in L. unfold until1 in K1. destruct (l_active s); lia. }
  induction H as [s|f r s tr s' E|f r s tr s' tr' e s'' E H IH]; intros l0 I N L h G.
  - destruct G.
  - exact (one _ _ _ _ _ _ _ I N L E h G).
  - apply in_app_or in G. destruct G as [G|G]; [exact (one _ _ _ _ _ _ _ I N L E h G)|].
    apply (IH (l0 ++ [f]) (linv_pass _ _ _ _ _ _ I E)) with (h := h); rewrite ?app_assoc_reverse; assumption.
Qed.

Theorem restless : forall c l tr e s, loop_run c l lstart = (tr, e, s) -> never_quiet l ->
  Z.of_nat (length l) <= l_max c -> e = false /\ forall h, ~ In (Obs true h) tr.
Proof.
  intros c l tr e s E N L. apply run_passes in E as P.
  pose proof (restless_aux _ _ _ _ _ _ P [] (linv_start c) N L) as G. split; [|exact G].
  destruct (run_plain _ _ _ _ _ _ E G) as [K _]; [cbn; lia|exact K].
Qed.

(** Such sequences exist in every length. *)
Fixpoint news (n : nat) : list (list bytes) :=
  match n with O => [] | S k => news k ++ [[repeat 97 k]] end.

Lemma news_length : forall n, length (news n) = n.
Proof. induction n; cbn [news]; [reflexivity|]. rewrite app_length, IHn. cbn. lia. Qed.

Lemma news_known : forall n k, known (news n) k -> (length k < n)%nat.
Proof.
  induction n as [|n IH]; intros k H; cbn [news] in H; [destruct H as (f & [] & _)|].
  apply known_app in H. destruct H as [H|[<-|[]]]; [apply IH in H; lia|]. rewrite repeat_length. lia.
Qed.

Lemma news_restless : forall n, never_quiet (news n).
Proof.
  induction n as [|n IH]; intros a f b E; cbn [news] in E; [destruct a; discriminate|].
  destruct (app_cut _ _ _ _ _ _ E) as [(b1 & E1 & _)|(a2 & -> & E2)]; [exact (IH _ _ _ E1)|].
  destruct a2 as [|x a2]; [|injection E2 as _ E2; destruct a2; discriminate].
  injection E2 as <- _. rewrite app_nil_r. intros [_ K]. specialize (K _ (or_introl eq_refl)).
  apply news_known in K. rewrite repeat_length in K. lia.
Qed.
