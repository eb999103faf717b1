(** Chains submitted by workers. *)
From Coq Require Import List ZArith Lia Bool Permutation.
From Verif.Model Require Import Base Str Tal Validator NetText Explore Ct CtPool.
From Verif.Spec Require Import CtPoolSpec.
Import ListNotations.

Section Pools.
Variable C : Type.
Notation sending := (sending C).

Lemma hands_app : forall a b : list (sender C), in_hands (a ++ b) = in_hands a ++ in_hands b.
Proof. intros. apply flat_map_app. Qed.
Lemma hands_len : forall ws : list (sender C), (length (in_hands ws) <= length ws)%nat.
Proof. intros ws. unfold in_hands. induction ws as [|[|c|] ws IH]; cbn; lia. Qed.
Lemma hands_ready : forall n, in_hands (repeat (@Ready C) n) = [].
Proof. intros n. induction n; cbn; auto. Qed.

Definition all_of (s : sending) : list C := to_hand (s_main s) ++ s_buffer s ++ in_hands (s_workers s) ++ s_sent s.

Lemma hands_idle : forall (a b : list (sender C)), in_hands (a ++ Ready :: b) = in_hands a ++ in_hands b.
Proof. intros. rewrite hands_app. reflexivity. Qed.
Lemma hands_left : forall (a b : list (sender C)), in_hands (a ++ Left :: b) = in_hands a ++ in_hands b.
Proof. intros. rewrite hands_app. reflexivity. Qed.
Lemma hands_busy : forall (a b : list (sender C)) c, in_hands (a ++ Submits c :: b) = in_hands a ++ c :: in_hands b.
Proof. intros. rewrite hands_app. reflexivity. Qed.
Lemma submit_perm : forall (x q : list C) a b c sent,
  Permutation (x ++ q ++ in_hands (a ++ Submits c :: b) ++ sent) (x ++ q ++ in_hands (a ++ Ready :: b) ++ sent ++ [c]).
Proof.
  intros. rewrite hands_idle, hands_busy. apply Permutation_app_head, Permutation_app_head.
  rewrite <- !app_assoc. apply Permutation_app_head. cbn [app]. rewrite !app_assoc. apply Permutation_cons_append.
Qed.
Lemma take_perm : forall (x q : list C) a b c sent,
  Permutation (x ++ (c :: q) ++ in_hands (a ++ Ready :: b) ++ sent) (x ++ q ++ in_hands (a ++ Submits c :: b) ++ sent).
Proof.
  intros. rewrite hands_idle, hands_busy. apply Permutation_app_head.
  rewrite <- !app_assoc. cbn [app]. rewrite (app_assoc q (in_hands a)), (app_assoc q (in_hands a)). apply Permutation_middle.
Qed.

Lemma ostep_all : forall s s', ostep C s s' -> Permutation (all_of s) (all_of s').
Proof.
  intros s s' H. destruct H; unfold all_of; cbn [s_main s_buffer s_workers s_sent to_hand].
  - rewrite <- (take_perm l [] a b c sent). cbn [app]. apply Permutation_middle.
  - apply (submit_perm (to_hand m) []).
  - reflexivity.
  - rewrite hands_idle, hands_left. reflexivity.
Qed.
Lemma cstep_all : forall n s s', cstep C n s s' -> Permutation (all_of s) (all_of s').
Proof.
  intros n s s' H. destruct H; unfold all_of; cbn [s_main s_buffer s_workers s_sent to_hand].
  - rewrite <- app_assoc. cbn [app]. rewrite (app_assoc l). rewrite (app_assoc l). apply Permutation_middle.
  - apply take_perm.
  - apply submit_perm.
  - reflexivity.
  - rewrite hands_idle, hands_left. reflexivity.
  - reflexivity.
Qed.
Lemma steps_all : forall (step : sending -> sending -> Prop), (forall s s', step s s' -> Permutation (all_of s) (all_of s')) ->
  forall s s', steps C step s s' -> Permutation (all_of s) (all_of s').
Proof. intros step H s s' S. induction S; [reflexivity|]. eapply Permutation_trans; [exact IHS|]. apply H. assumption. Qed.
Lemma start_all : forall n l, all_of (send_start C n l) = l.
Proof. intros n l. unfold all_of, send_start. cbn [s_main s_buffer s_workers s_sent to_hand app]. rewrite hands_ready. cbn [app]. apply app_nil_r. Qed.

Lemma inv_steps : forall (step : sending -> sending -> Prop) (Q : sending -> Prop),
  (forall s s', Q s -> step s s' -> Q s') -> forall s s', Q s -> steps C step s s' -> Q s'.
Proof. intros step Q H s s' I S. induction S; [assumption|]. eapply H; [apply IHS; assumption|eassumption]. Qed.

(** *** octorpki *)
Definition oinv (n : nat) (s : sending) : Prop := s_buffer s = [] /\ length (s_workers s) = n /\ (forall i, s_main s <> Quits i) /\
  (forall l, s_main s = Hands l -> ~ In Left (s_workers s)).
Lemma oinv_start : forall n l, oinv n (send_start C n l).
Proof.
  intros n l. unfold oinv, send_start. cbn. rewrite repeat_length. repeat split; try discriminate. intros _ _ I. apply repeat_spec in I. discriminate.
Qed.
Lemma oinv_step : forall n s s', oinv n s -> ostep C s s' -> oinv n s'.
Proof.
  intros n s s' (B & L & M & K) H. destruct H; unfold oinv in *; cbn [s_main s_buffer s_workers] in *.
  - split; [reflexivity|]. split; [rewrite app_length in *; cbn [length] in *; lia|]. split; [discriminate|].
    intros l' E I. apply (K _ eq_refl). rewrite in_app_iff in *. cbn [In] in *. intuition discriminate.
  - split; [reflexivity|]. split; [rewrite app_length in *; cbn [length] in *; lia|]. split; [exact M|].
    intros l' E I. apply (K _ E). rewrite in_app_iff in *. cbn [In] in *. intuition discriminate.
  - split; [reflexivity|]. split; [exact L|]. split; discriminate.
  - split; [reflexivity|]. split; [rewrite app_length in *; cbn [length] in *; lia|]. split; discriminate.
Qed.
Lemma oinv_reach : forall n l s, steps C (ostep C) (send_start C n l) s -> oinv n s.
Proof. intros n l s H. apply (inv_steps _ _ (oinv_step n) _ _ (oinv_start n l) H). Qed.

Theorem octo_once : forall n l s, steps C (ostep C) (send_start C n l) s ->
  Permutation l (to_hand (s_main s) ++ in_hands (s_workers s) ++ s_sent s) /\ (length (in_hands (s_workers s)) <= n)%nat.
Proof.
  intros n l s H. destruct (oinv_reach _ _ _ H) as (B & L & _).
  pose proof (steps_all _ ostep_all _ _ H) as P. rewrite start_all in P. unfold all_of in P. rewrite B in P. cbn [app] in P.
  split; [exact P|]. rewrite <- L. apply hands_len.
Qed.
Theorem octo_live : forall n l s, (0 < n)%nat -> steps C (ostep C) (send_start C n l) s ->
  (exists s', ostep C s s') \/ (s_main s = Ended /\ Forall (fun w => w = Left) (s_workers s) /\ Permutation l (s_sent s)).
Proof.
  intros n l s N H. destruct (oinv_reach _ _ _ H) as (B & L & M & K). destruct (octo_once _ _ _ H) as (P & _).
  destruct s as [m q ws sent]. cbn [s_main s_buffer s_workers s_sent] in *. subst q.
  assert (D : (exists c, In (Submits c) ws) \/ In Ready ws \/ Forall (fun w => w = Left) ws).
  { clear. induction ws as [|[|c|] ws IH]; cbn [In]; [right; right; constructor|auto|left; eauto|].
    destruct IH as [(c & I)|[I|F]]; [left; eauto|auto|right; right; constructor; auto]. }
  destruct D as [(c & I)|[I|F]].
  - left. apply in_split in I as (a & b & ->). eexists. apply os_submit.
  - left. apply in_split in I as (a & b & ->). destruct m as [[|c l']|i|]; [eexists; apply os_close|eexists; apply os_hand|now elim (M i)|eexists; apply os_leave].
  - destruct m as [l'|i|]; [|now elim (M i)|].
    + exfalso. destruct ws as [|w ws]; [cbn in L; lia|]. apply (K _ eq_refl). inversion F; subst. now left.
    + right. split; [reflexivity|]. split; [exact F|]. cbn [to_hand app] in P.
      assert (E : in_hands ws = []) by (clear - F; induction F as [|w ws -> F IH]; cbn; auto). rewrite E in P. exact P.
Qed.
Theorem octo_stuck : forall c l s, steps C (ostep C) (send_start C 0 (c :: l)) s -> s = send_start C 0 (c :: l).
Proof.
  intros c l s H. remember (send_start C 0 (c :: l)) as s0 eqn:E. induction H as [|a b d S IH T]; [reflexivity|]. specialize (IH E).
  exfalso. rewrite IH, E in T. unfold send_start in T. cbn [repeat] in T.
  inversion T; match goal with H : _ ++ _ :: _ = [] |- _ => symmetry in H; now apply app_cons_not_nil in H end.
Qed.

(** Every step brings the end nearer. *)
Definition wcost (w : sender C) : nat := match w with Ready => 1 | Submits _ => 2 | Left => 0 end.
Definition mcost (n : nat) (m : hander C) : nat :=
  match m with Hands l => 3 * length l + n + 2 | Quits i => (n - i) + 1 | Ended => 0 end.
Definition cost (n : nat) (s : sending) : nat :=
  mcost n (s_main s) + 2 * length (s_buffer s) + list_sum (map wcost (s_workers s)).
Lemma wsum_app : forall a b w, list_sum (map wcost (a ++ w :: b)) = (list_sum (map wcost a) + wcost w + list_sum (map wcost b))%nat.
Proof. intros a b w. rewrite map_app, list_sum_app. cbn [map list_sum fold_right]. unfold list_sum. lia. Qed.
Lemma ostep_cost : forall n s s', ostep C s s' -> (cost n s' < cost n s)%nat.
Proof.
  intros n s s' H. destruct H; unfold cost; cbn [s_main s_buffer s_workers mcost length]; rewrite ?wsum_app; cbn [wcost]; lia.
Qed.
Lemma cstep_cost : forall n s s', cstep C n s s' -> (cost n s' < cost n s)%nat.
Proof.
  intros n s s' H. destruct H; unfold cost; cbn [s_main s_buffer s_workers mcost length]; rewrite ?wsum_app, ?app_length; cbn [wcost length]; lia.
Qed.
Theorem octo_ends : forall s, Acc (fun b a => ostep C a b) s.
Proof.
  intros s. remember (cost 0 s) as k eqn:E. revert s E. induction k as [k IH] using (well_founded_induction lt_wf). intros s ->.
  constructor. intros s' H. apply (IH (cost 0 s')); [exact (ostep_cost 0 _ _ H)|reflexivity].
Qed.
Theorem ctrpki_ends : forall n s, Acc (fun b a => cstep C n a b) s.
Proof.
  intros n s. remember (cost n s) as k eqn:E. revert s E. induction k as [k IH] using (well_founded_induction lt_wf). intros s ->.
  constructor. intros s' H. apply (IH (cost n s')); [exact (cstep_cost n _ _ H)|reflexivity].
Qed.

(** *** ctrpki *)
Definition cinv (n : nat) (s : sending) : Prop :=
  (length (s_buffer s) <= n)%nat /\ length (s_workers s) = n /\
  match s_main s with
  | Hands _ => ~ In Left (s_workers s)
  | Quits i => (i <= n)%nat /\ Forall (fun w => w = Left) (firstn i (s_workers s)) /\ ~ In Left (skipn i (s_workers s))
  | Ended => Forall (fun w => w = Left) (s_workers s)
  end.
Lemma cinv_start : forall n l, cinv n (send_start C n l).
Proof. intros n l. unfold cinv, send_start. cbn. rewrite repeat_length. repeat split; [lia|]. intros I. apply repeat_spec in I. discriminate. Qed.

(** Exchanging a worker that has not left for another. *)
Lemma left_swap : forall (a b : list (sender C)) w w' i, w <> Left -> w' <> Left ->
  Forall (fun x => x = Left) (firstn i (a ++ w :: b)) -> ~ In Left (skipn i (a ++ w :: b)) ->
  Forall (fun x => x = Left) (firstn i (a ++ w' :: b)) /\ ~ In Left (skipn i (a ++ w' :: b)).
Proof.
  intros a b w w' i W W' F N. destruct (Nat.leb_spec i (length a)) as [LE|GT].
  - rewrite firstn_app in *. rewrite skipn_app in *. replace (i - length a)%nat with 0%nat in * by lia. cbn [firstn skipn] in *.
    split; [exact F|]. rewrite in_app_iff in *. cbn [In] in *. intuition congruence.
  - exfalso. rewrite firstn_app in F. replace (i - length a)%nat with (S (i - length a - 1))%nat in F by lia. cbn [firstn] in F.
    apply Forall_app in F as (_ & F). inversion F. contradiction.
Qed.
Lemma left_main : forall n m (a b : list (sender C)) w w' q q' sent sent', w <> Left -> w' <> Left -> (length q' <= n)%nat ->
  cinv n (mkSend m q (a ++ w :: b) sent) -> cinv n (mkSend m q' (a ++ w' :: b) sent').
Proof.
  intros n m a b w w' q q' sent sent' W W' Q (_ & L & I). unfold cinv in *. cbn [s_main s_buffer s_workers] in *.
  split; [exact Q|]. split; [rewrite app_length in *; cbn [length] in *; lia|]. destruct m as [l|i|].
  - rewrite in_app_iff in *. cbn [In] in *. intuition congruence.
  - destruct I as (I1 & I2 & I3). split; [exact I1|]. exact (left_swap a b w w' i W W' I2 I3).
  - exfalso. apply Forall_app in I as (_ & I). inversion I. contradiction.
Qed.
Lemma cinv_step : forall n s s', cinv n s -> cstep C n s s' -> cinv n s'.
Proof.
  intros n s s' I H. destruct H.
  - destruct I as (B & L & I). unfold cinv in *. cbn [s_main s_buffer s_workers] in *. rewrite app_length. cbn [length]. repeat split; auto; lia.
  - eapply left_main; [| | |exact I]; try discriminate. destruct I as (B & _). cbn in B. lia.
  - eapply left_main; [| | |exact I]; try discriminate. destruct I as (B & _). exact B.
  - destruct I as (B & L & I). unfold cinv in *. cbn [s_main s_buffer s_workers] in *. cbn [firstn skipn]. repeat split; auto; lia.
  - destruct I as (B & L & I1 & I2 & I3). unfold cinv in *. cbn [s_main s_buffer s_workers] in *. split; [exact B|].
    split; [rewrite app_length in *; cbn [length] in *; lia|]. split; [lia|].
    rewrite firstn_app, firstn_all, Nat.sub_diag in I2. rewrite skipn_app, skipn_all, Nat.sub_diag in I3. cbn [firstn skipn app] in I2, I3. rewrite app_nil_r in I2.
    replace (S (length a)) with (length a + 1)%nat by lia.
    rewrite firstn_app_2, skipn_app. replace (length a + 1 - length a)%nat with 1%nat by lia. cbn [firstn skipn].
    rewrite skipn_all2 by lia. cbn [app]. split; [|intros X; apply I3; now right].
    apply Forall_app. split; [exact I2|]. constructor; auto.
  - destruct I as (B & L & I1 & I2 & I3). unfold cinv in *. cbn [s_main s_buffer s_workers] in *. split; [exact B|]. split; [exact L|].
    rewrite firstn_all2 in I2 by lia. exact I2.
Qed.
Lemma cinv_reach : forall n l s, steps C (cstep C n) (send_start C n l) s -> cinv n s.
Proof. intros n l s H. apply (inv_steps _ _ (cinv_step n) _ _ (cinv_start n l) H). Qed.

Theorem ctrpki_once : forall n l s, steps C (cstep C n) (send_start C n l) s ->
  Permutation l (to_hand (s_main s) ++ s_buffer s ++ in_hands (s_workers s) ++ s_sent s).
Proof. intros n l s H. pose proof (steps_all _ (cstep_all n) _ _ H) as P. rewrite start_all in P. exact P. Qed.
Theorem ctrpki_end : forall n l s, steps C (cstep C n) (send_start C n l) s -> s_main s = Ended ->
  Permutation l (s_buffer s ++ s_sent s) /\ (length (s_buffer s) <= n)%nat /\ (length l <= length (s_sent s) + n)%nat.
Proof.
  intros n l s H E. destruct (cinv_reach _ _ _ H) as (B & L & I). rewrite E in I. pose proof (ctrpki_once _ _ _ H) as P. rewrite E in P.
  cbn [to_hand app] in P. assert (Z : in_hands (s_workers s) = []) by (clear - I; induction I as [|w ws -> F IH]; cbn; auto).
  rewrite Z in P. cbn [app] in P. split; [exact P|]. split; [exact B|]. apply Permutation_length in P. rewrite app_length in P. lia.
Qed.
Theorem ctrpki_live : forall n l s, steps C (cstep C n) (send_start C n l) s -> (0 < n)%nat -> s_main s <> Ended -> exists s', cstep C n s s'.
Proof.
  intros n l s H N NE. destruct (cinv_reach _ _ _ H) as (B & L & I). destruct s as [m q ws sent]. cbn [s_main s_buffer s_workers] in *.
  destruct m as [[|c l']|i|]; [eexists; apply cs_end| | |congruence].
  - destruct (Nat.ltb_spec (length q) n) as [LT|GE]; [eexists; now apply cs_put|].
    destruct q as [|d q]; [cbn in GE; lia|]. destruct ws as [|[|e|] ws]; [cbn in L; lia| | |].
    + eexists. apply (cs_take C n _ d q [] ws).
    + eexists. apply (cs_submit C n _ (d :: q) [] e ws).
    + exfalso. apply I. now left.
  - destruct I as (I1 & I2 & I3). destruct (Nat.eq_dec i n) as [->|NN]; [eexists; apply cs_exit|].
    assert (exists a w b, ws = a ++ w :: b /\ length a = i) as (a & w & b & -> & LA).
    { destruct (nth_error ws i) as [w|] eqn:E; [|apply nth_error_None in E; lia]. apply nth_error_split in E as (a & b & -> & LA). eauto. }
    subst i. rewrite skipn_app, skipn_all, Nat.sub_diag in I3. cbn [skipn app] in I3. destruct w as [|e|].
    + eexists. apply cs_quit. lia.
    + eexists. apply cs_submit.
    + exfalso. apply I3. now left.
Qed.
Theorem ctrpki_may_lose : forall n c l, (length (c :: l) <= n)%nat ->
  exists s, steps C (cstep C n) (send_start C n (c :: l)) s /\ s_main s = Ended /\ s_sent s = [].
Proof.
  intros n c l. generalize (c :: l) as k. clear c l. intros k LK.
  assert (A : forall k q, (length q + length k <= n)%nat ->
    steps C (cstep C n) (mkSend (Hands (q ++ k)) [] (repeat Ready n) []) (mkSend (Hands k) q (repeat Ready n) [])).
  { intros k' q. revert k'. induction q as [|x q IH] using rev_ind; intros k' H; [constructor|]. rewrite app_length in H. cbn [length] in H.
    rewrite <- app_assoc. cbn [app]. eapply steps_next; [apply IH; cbn [length]; lia|]. apply cs_put. lia. }
  assert (B : forall q i, (i <= n)%nat -> steps C (cstep C n) (mkSend (Quits 0) q (repeat Ready n) []) (mkSend (Quits i) q (repeat Left i ++ repeat Ready (n - i)) [])).
  { intros q i. induction i as [|i IH]; intros H; [cbn [repeat app]; rewrite Nat.sub_0_r; constructor|].
    eapply steps_next; [apply IH; lia|]. replace (n - i)%nat with (S (n - S i))%nat by lia. cbn [repeat].
    pose proof (cs_quit C n q (repeat Left i) (repeat Ready (n - S i)) [] ltac:(rewrite repeat_length; lia)) as Q. rewrite repeat_length in Q.
    change (Left :: repeat Left i ++ repeat Ready (n - S i)) with ((Left :: repeat (@Left C) i) ++ repeat Ready (n - S i)).
    replace ((Left :: repeat (@Left C) i) ++ repeat Ready (n - S i)) with (repeat (@Left C) i ++ Left :: repeat Ready (n - S i)); [exact Q|].
    rewrite repeat_cons, <- app_assoc. reflexivity. }
  exists (mkSend Ended k (repeat Left n ++ repeat Ready (n - n)) []). split; [|auto].
  assert (T : forall a b c, steps C (cstep C n) a b -> steps C (cstep C n) b c -> steps C (cstep C n) a c).
  { intros a b d S1 S2. induction S2; [exact S1|]. eapply steps_next; [apply IHS2; exact S1|eassumption]. }
  eapply steps_next; [|apply cs_exit]. eapply T; [|apply B; lia].
  eapply steps_next; [|apply cs_end]. pose proof (A [] k) as AK. rewrite app_nil_r in AK. apply AK. cbn. lia.
Qed.
End Pools.
