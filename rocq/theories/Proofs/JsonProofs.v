(** JSON texts: what the grammar allows is read, what is written is allowed by
    the grammar, a text that is read is read the same when more follows, and
    the fuel suffices. *)
From Coq Require Import List ZArith Lia Bool String.
From Verif.Model Require Import Base Str Der Json.
From Verif.Spec Require Import JsonSpec.
From Verif.Proofs Require Import JsonStr.
Import ListNotations.
Open Scope Z_scope.

(** ** White space *)
Lemma is_ws_In : forall c, is_ws c = true <-> In c [32; 9; 10; 13].
Proof. intros c. unfold is_ws. rewrite !orb_true_iff, !Z.eqb_eq. cbn [In]. intuition lia. Qed.
Lemma skip_ws_pre : forall w s, ws w -> skip_ws (w ++ s) = skip_ws s.
Proof.
  intros w s W. induction W as [|c w C W IH]; [reflexivity|]. cbn [app skip_ws]. rewrite (proj2 (is_ws_In c) C). exact IH.
Qed.
Lemma skip_ws_stop : forall c r, ~ In c [32; 9; 10; 13] -> skip_ws (c :: r) = c :: r.
Proof. intros c r N. cbn [skip_ws]. destruct (is_ws c) eqn:E; [exfalso; apply N, is_ws_In, E|reflexivity]. Qed.
Lemma skip_ws_app : forall s x, skip_ws s <> [] -> skip_ws (s ++ x) = skip_ws s ++ x.
Proof.
  induction s as [|c s IH]; intros x H; [contradiction|]. cbn [app skip_ws] in *. destruct (is_ws c); [apply IH, H|reflexivity].
Qed.
Lemma skip_ws_cons_app : forall s x c r, skip_ws s = c :: r -> skip_ws (s ++ x) = c :: r ++ x.
Proof. intros s x c r H. rewrite skip_ws_app by (rewrite H; discriminate). rewrite H. reflexivity. Qed.
Lemma skip_ws_length : forall s, (length (skip_ws s) <= length s)%nat.
Proof. induction s as [|c s IH]; [cbn; lia|]. cbn [skip_ws]. destruct (is_ws c); cbn [length]; lia. Qed.
Lemma skip_ws_cons_length : forall s c r, skip_ws s = c :: r -> (S (length r) <= length s)%nat.
Proof. intros s c r H. pose proof (skip_ws_length s) as L. rewrite H in L. cbn [length] in L. lia. Qed.
Lemma skip_ws_all : forall w, ws w -> skip_ws w = [].
Proof. intros w W. rewrite <- (app_nil_r w), skip_ws_pre by exact W. reflexivity. Qed.

(** ** Numbers *)
Definition stop (r : bytes) : Prop :=
  match r with [] => True | c :: _ => ~ (48 <= c <= 57) /\ c <> 46 /\ c <> 101 /\ c <> 69 end.
Lemma is_dig_spec : forall c, is_dig c = true <-> 48 <= c <= 57.
Proof. intros. apply in_range_spec. Qed.
Lemma is_dig_false : forall c, ~ (48 <= c <= 57) -> is_dig c = false.
Proof. intros c N. destruct (is_dig c) eqn:E; [apply is_dig_spec in E; contradiction|reflexivity]. Qed.
Lemma span_dig_digits : forall d r, Forall (fun c => 48 <= c <= 57) d ->
  (match r with [] => True | c :: _ => ~ (48 <= c <= 57) end) -> span_dig (d ++ r) = (d, r).
Proof.
  intros d r F R. induction F as [|c d C F IH].
  - cbn [app]. destruct r as [|c r]; [reflexivity|]. cbn [span_dig]. rewrite is_dig_false by exact R. reflexivity.
  - cbn [app span_dig]. rewrite (proj2 (is_dig_spec c) C), IH. reflexivity.
Qed.
Lemma span_dig_parts : forall s a b, span_dig s = (a, b) -> s = a ++ b.
Proof.
  induction s as [|c s IH]; intros a b H; [injection H as <- <-; reflexivity|].
  cbn [span_dig] in H. destruct (is_dig c); [|injection H as <- <-; reflexivity].
  destruct (span_dig s) as [a' b'] eqn:E. injection H as <- <-. cbn [app]. f_equal. apply IH. reflexivity.
Qed.
Lemma span_dig_app : forall s a b x, span_dig s = (a, b) -> b <> [] -> span_dig (s ++ x) = (a, b ++ x).
Proof.
  induction s as [|c s IH]; intros a b x H N; [injection H as <- <-; contradiction|].
  cbn [app span_dig] in *. destruct (is_dig c); [|injection H as <- <-; reflexivity].
  destruct (span_dig s) as [a' b'] eqn:E. injection H as <- <-. rewrite (IH _ _ x eq_refl N). reflexivity.
Qed.

Definition jexp (e : bytes) : Prop := e = [] \/ exists x g d, In x [101; 69] /\ In g [[]; [43]; [45]] /\ digits d /\ e = x :: g ++ d.
Definition jfrac (f : bytes) : Prop := f = [] \/ exists d, digits d /\ f = 46 :: d.
Lemma p_exp_grammar : forall e r, jexp e -> stop r -> p_exp (e ++ r) = Some (e, r).
Proof.
  intros e r [->|(x & g & d & X & G & (D1 & D2) & ->)] ST.
  - cbn [app]. destruct r as [|c r]; [reflexivity|]. destruct ST as (_ & _ & A & B). cbn [p_exp].
    rewrite (proj2 (Z.eqb_neq c 101) A), (proj2 (Z.eqb_neq c 69) B). reflexivity.
  - assert (NR : match r with [] => True | c :: _ => ~ (48 <= c <= 57) end) by (destruct r; [exact I|destruct ST; assumption]).
    destruct d as [|c d]; [contradiction|].
    assert (XE : (x =? 101) || (x =? 69) = true) by (cbn [In] in X; destruct X as [<-|[<-|[]]]; reflexivity).
    rewrite <- app_comm_cons, <- app_assoc. cbn [p_exp]. rewrite XE.
    pose proof (span_dig_digits (c :: d) r D2 NR) as SD.
    cbn [In] in G. destruct G as [<-|[<-|[<-|[]]]]; cbn [app] in *.
    + inversion D2 as [|? ? C _]; subst. rewrite (proj2 (Z.eqb_neq c 43)), (proj2 (Z.eqb_neq c 45)) by lia. cbn [orb].
      rewrite SD. reflexivity.
    + change ((43 =? 43) || (43 =? 45)) with true. cbv iota. rewrite SD. reflexivity.
    + change ((45 =? 43) || (45 =? 45)) with true. cbv iota. rewrite SD. reflexivity.
Qed.
Lemma exp_stops : forall e r, jexp e -> stop r -> match e ++ r with [] => True | c :: _ => ~ (48 <= c <= 57) /\ c <> 46 end.
Proof.
  intros e r [->|(x & g & d & X & _ & _ & ->)] ST.
  - destruct r as [|c r]; [exact I|]. destruct ST as (A & B & _). split; assumption.
  - cbn [app]. cbn [In] in X. destruct X as [<-|[<-|[]]]; lia.
Qed.
Lemma p_frac_grammar : forall f e r, jfrac f -> jexp e -> stop r -> p_frac (f ++ e ++ r) = Some (f ++ e, r).
Proof.
  intros f e r F E ST. pose proof (exp_stops e r E ST) as X. destruct F as [->|(d & (D1 & D2) & ->)].
  - cbn [app]. unfold p_frac. rewrite p_exp_grammar by assumption. destruct (e ++ r) as [|c q] eqn:Q; [reflexivity|].
    destruct X as (_ & X). rewrite (proj2 (Z.eqb_neq c 46) X). reflexivity.
  - cbn [app p_frac]. change (46 =? 46) with true. cbv iota.
    rewrite span_dig_digits; [|exact D2|destruct (e ++ r); [exact I|apply X]].
    destruct d as [|c d]; [contradiction|]. rewrite p_exp_grammar by assumption. reflexivity.
Qed.
Lemma frac_stops : forall f e r, jfrac f -> jexp e -> stop r -> match f ++ e ++ r with [] => True | c :: _ => ~ (48 <= c <= 57) end.
Proof.
  intros f e r [->|(d & _ & ->)] E ST.
  - cbn [app]. pose proof (exp_stops e r E ST) as X. destruct (e ++ r); [exact I|apply X].
  - cbn [app]. lia.
Qed.
Lemma p_num_grammar : forall t r, jnumber t -> stop r -> p_num (t ++ r) = Some (t, r).
Proof.
  intros t r (m & i & f & e & -> & M & I0 & F & E) ST.
  pose proof (p_frac_grammar f e r F E ST) as PF. pose proof (frac_stops f e r F E ST) as X.
  assert (HI : exists c i', i = c :: i' /\ 48 <= c <= 57).
  { destruct I0 as [->|((A & B) & _)]; [exists 48, []; split; [reflexivity|lia]|].
    destruct i as [|c i']; [contradiction|]. inversion B; subst. exists c, i'. split; [reflexivity|assumption]. }
  destruct HI as (c & i' & Ei & C).
  assert (Q : forall sg, match i ++ f ++ e ++ r with
    | c :: r1 => if c =? 48 then pre (sg ++ [c]) (p_frac r1)
                 else if is_dig c then let '(d, r2) := span_dig r1 in pre (sg ++ c :: d) (p_frac r2) else None
    | [] => None end = Some (sg ++ i ++ f ++ e, r)).
  { intros sg. destruct I0 as [->|((_ & B) & Z0)].
    - cbn [app]. change (48 =? 48) with true. cbv iota. rewrite PF. cbn [pre]. rewrite <- app_assoc. reflexivity.
    - subst i. cbn [app hd] in *. rewrite (proj2 (Z.eqb_neq c 48) Z0). rewrite (proj2 (is_dig_spec c) C).
      inversion B as [|? ? _ B']; subst. rewrite span_dig_digits by assumption. rewrite PF. cbn [pre]. rewrite <- !app_assoc. reflexivity. }
  rewrite <- !app_assoc. unfold p_num. destruct M as [->| ->].
  - cbn [app]. specialize (Q []). cbn [app] in Q. etransitivity; [|exact Q]. subst i. cbn [app].
    rewrite (proj2 (Z.eqb_neq c 45)) by lia. reflexivity.
  - cbn [app]. change (45 =? 45) with true. cbv iota. rewrite (Q [45]). reflexivity.
Qed.

Lemma p_exp_app : forall s t r x, p_exp s = Some (t, r) -> r <> [] -> p_exp (s ++ x) = Some (t, r ++ x).
Proof.
  intros s t r x H N. destruct s as [|c s]; [injection H as <- <-; contradiction|]. cbn [app p_exp] in *.
  destruct ((c =? 101) || (c =? 69)); [|injection H as <- <-; reflexivity].
  destruct s as [|y s]; [discriminate H|]. cbn [app] in *. destruct ((y =? 43) || (y =? 45)).
  - destruct (span_dig s) as [d r2] eqn:E. destruct d as [|d1 d]; [discriminate H|]. injection H as <- <-.
    rewrite (span_dig_app _ _ _ x E N). reflexivity.
  - destruct (span_dig (y :: s)) as [d r2] eqn:E. destruct d as [|d1 d]; [discriminate H|]. injection H as <- <-.
    rewrite app_comm_cons, (span_dig_app _ _ _ x E N). reflexivity.
Qed.
Lemma p_exp_nil : forall t r, p_exp [] = Some (t, r) -> r = [].
Proof. intros t r H. injection H as <- <-. reflexivity. Qed.
Lemma p_frac_app : forall s t r x, p_frac s = Some (t, r) -> r <> [] -> p_frac (s ++ x) = Some (t, r ++ x).
Proof.
  intros s t r x H N. destruct s as [|c s]; [apply p_exp_nil in H; contradiction|]. cbn [app]. unfold p_frac in *.
  destruct (c =? 46); [|apply (p_exp_app (c :: s)); assumption].
  destruct (span_dig s) as [d r1] eqn:E. destruct d as [|d1 d]; [discriminate H|].
  destruct (pre_some _ _ _ _ H) as (v' & Q & ->).
  assert (N1 : r1 <> []) by (intro; subst r1; apply p_exp_nil in Q; contradiction).
  rewrite (span_dig_app _ _ _ x E N1), (p_exp_app _ _ _ x Q N). reflexivity.
Qed.
Lemma p_num_app : forall s t r x, p_num s = Some (t, r) -> r <> [] -> p_num (s ++ x) = Some (t, r ++ x).
Proof.
  assert (Q : forall sg (s t r x : bytes),
    match s with
    | c :: r1 => if c =? 48 then pre (sg ++ [c]) (p_frac r1)
                 else if is_dig c then let '(d, r2) := span_dig r1 in pre (sg ++ c :: d) (p_frac r2) else None
    | [] => None end = Some (t, r) -> r <> [] ->
    match s ++ x with
    | c :: r1 => if c =? 48 then pre (sg ++ [c]) (p_frac r1)
                 else if is_dig c then let '(d, r2) := span_dig r1 in pre (sg ++ c :: d) (p_frac r2) else None
    | [] => None end = Some (t, r ++ x)).
  { intros sg s t r x H N. destruct s as [|c s]; [discriminate H|]. cbn [app]. destruct (c =? 48).
    - destruct (pre_some _ _ _ _ H) as (v' & E & ->). rewrite (p_frac_app _ _ _ x E N). reflexivity.
    - destruct (is_dig c); [|discriminate H]. destruct (span_dig s) as [d r2] eqn:E.
      destruct (pre_some _ _ _ _ H) as (v' & F & ->).
      assert (N2 : r2 <> []) by (intro; subst r2; apply p_exp_nil in F; contradiction).
      rewrite (span_dig_app _ _ _ x E N2), (p_frac_app _ _ _ x F N). reflexivity. }
  intros s t r x H N. unfold p_num in *. destruct s as [|c s]; [discriminate H|]. cbn [app] in *.
  destruct (c =? 45); [apply (Q [c] s); assumption|]. exact (Q [] (c :: s) t r x H N).
Qed.
Lemma p_exp_rest : forall s t r, p_exp s = Some (t, r) -> s = t ++ r.
Proof.
  intros s t r H. destruct s as [|c s]; [injection H as <- <-; reflexivity|]. cbn [p_exp] in H.
  destruct ((c =? 101) || (c =? 69)); [|injection H as <- <-; reflexivity].
  destruct s as [|y s]; [discriminate H|]. destruct ((y =? 43) || (y =? 45)).
  - destruct (span_dig s) as [d r2] eqn:E. destruct d as [|d1 d]; [discriminate H|]. injection H as <- <-.
    rewrite (span_dig_parts _ _ _ E). reflexivity.
  - destruct (span_dig (y :: s)) as [d r2] eqn:E. destruct d as [|d1 d]; [discriminate H|]. injection H as <- <-.
    rewrite (span_dig_parts _ _ _ E). reflexivity.
Qed.
Lemma p_frac_rest : forall s t r, p_frac s = Some (t, r) -> s = t ++ r.
Proof.
  intros s t r H. destruct s as [|c s]; [exact (p_exp_rest [] t r H)|]. unfold p_frac in *.
  destruct (c =? 46); [|apply p_exp_rest in H; exact H].
  destruct (span_dig s) as [d r1] eqn:E. destruct d as [|d1 d]; [discriminate H|].
  destruct (pre_some _ _ _ _ H) as (v' & Q & ->). rewrite (span_dig_parts _ _ _ E), (p_exp_rest _ _ _ Q).
  cbn [app]. rewrite <- app_assoc. reflexivity.
Qed.
Lemma p_num_rest : forall s t r, p_num s = Some (t, r) -> (length r < length s)%nat.
Proof.
  assert (Q : forall sg (s t r : bytes),
    match s with
    | c :: r1 => if c =? 48 then pre (sg ++ [c]) (p_frac r1)
                 else if is_dig c then let '(d, r2) := span_dig r1 in pre (sg ++ c :: d) (p_frac r2) else None
    | [] => None end = Some (t, r) -> (length r < length s)%nat).
  { intros sg s t r H. destruct s as [|c s]; [discriminate H|]. cbn [length]. destruct (c =? 48).
    - destruct (pre_some _ _ _ _ H) as (v' & E & ->). rewrite (p_frac_rest _ _ _ E), app_length. lia.
    - destruct (is_dig c); [|discriminate H]. destruct (span_dig s) as [d r2] eqn:E.
      destruct (pre_some _ _ _ _ H) as (v' & F & ->).
      rewrite (span_dig_parts _ _ _ E), (p_frac_rest _ _ _ F), !app_length. lia. }
  intros s t r H. unfold p_num in *. destruct s as [|c s]; [discriminate H|].
  destruct (c =? 45); [apply (Q [c] s) in H; cbn [length]; lia|]. exact (Q [] (c :: s) t r H).
Qed.
