(** The main loop. *)
From Coq Require Import String Lia Permutation.
From Verif.Model Require Import Base Str Tal TalText Paths Validator Cache Rrdp Pool Octo.
From Verif.Spec Require Import PathSpec RrdpSpec OctoSpec.
From Verif.Proofs Require Import StrProofs PathProofs RrdpProofs CacheProofs CacheThm CacheEvents PoolProofs.

(** ** Pinning *)

Definition sound_bindings (o : octo) : Prop :=
  forall p m, o_fetch o p = Some m -> exists h, o_domain o p = Some (domain_of h) /\ module_of h m.

Lemma domain_module_spec : forall u m d, domain_module u = Some (m, d) ->
  exists h, d = domain_of h /\ module_of h m.
Proof.
  intros u m d H. unfold domain_module in H. destruct (8 <? length u)%nat; [|discriminate].
  pose proof (split_clean slash (skipn 8 u)) as C.
  destruct (split_on slash (skipn 8 u)) as [|h [|x r]]; [discriminate|discriminate|].
  inversion C as [|? ? C1 C2]; subst. inversion C2; subst. injection H as <- <-.
  exists h. split; [reflexivity|]. split; [assumption|]. exists x. split; [assumption|reflexivity].
Qed.

Lemma kset_same : forall A (m : kmap A) k v, kset m k v k = Some v.
Proof. intros. unfold kset. rewrite beq_refl. reflexivity. Qed.
Lemma kset_other : forall A (m : kmap A) k v k', k' <> k -> kset m k v k' = m k'.
Proof.
  intros A m k v k' H. unfold kset. destruct (beq k' k) eqn:E; [|destruct (beq k k') eqn:F]; try reflexivity;
  try (apply beq_eq in E; congruence); try (apply beq_eq in F; congruence).
Qed.

(** What a certificate does. *)
Definition with_job (o : octo) (m rrdp : bytes) : octo :=
  mkOcto (o_fetch o) (o_domain o) (kset (o_jobs o) m rrdp) (o_info o) (o_prev o) (add_key (o_cur o) m).
Definition with_server (o : octo) (p m d : bytes) : octo :=
  mkOcto (kset (o_fetch o) p m) (kset (o_domain o) p d) (o_jobs o) (o_info o) (o_prev o) (o_cur o).

Lemma register_cases : forall sia o,
  (register sia o = o /\   (domain_module (odef [] (first_sia is_sia_repo sia)) = None \/
     exists m d p prev, domain_module (odef [] (first_sia is_sia_repo sia)) = Some (m, d) /\      first_sia is_sia_notify sia = Some p /\ o_domain o p = Some prev /\ prev <> d)) \/
  exists m d, domain_module (odef [] (first_sia is_sia_repo sia)) = Some (m, d) /\   ((first_sia is_sia_notify sia = None /\ register sia o = with_job o m []) \/
     exists p, first_sia is_sia_notify sia = Some p /\ (o_domain o p = None \/ o_domain o p = Some d) /\      register sia o = with_job (with_server o p m d) m p).
Proof.
  intros sia o. unfold register.
  destruct (domain_module (odef [] (first_sia is_sia_repo sia))) as [[m d]|]; [|left; auto].
  destruct (first_sia is_sia_notify sia) as [p|] eqn:Hn.
  - destruct (o_domain o p) as [prev|] eqn:Hp.
    + destruct (beq prev d) eqn:Hb.
      * apply beq_eq in Hb. subst prev. right. exists m, d. split; [reflexivity|]. right. exists p. auto.
      * left. split; [reflexivity|]. right. exists m, d, p, prev. repeat split; auto.
        intros ->. rewrite beq_refl in Hb. discriminate.
    + right. exists m, d. split; [reflexivity|]. right. exists p. auto.
  - right. exists m, d. split; [reflexivity|]. left. auto.
Qed.

Lemma register_pinned : forall sia o p d, o_domain o p = Some d -> o_domain (register sia o) p = Some d.
Proof.
  intros sia o p d' H.
  destruct (register_cases sia o) as [[-> _]|(m & d & Hdm & [[_ ->]|(p0 & _ & Hp & ->)])]; try exact H.
  unfold with_job, with_server. cbn [o_domain].
  destruct (beq p p0) eqn:E; [apply beq_eq in E; subst p0|].
  - rewrite kset_same. destruct Hp; congruence.
  - rewrite kset_other; [exact H|]. intros ->. rewrite beq_refl in E. discriminate.
Qed.

Lemma register_all_pinned : forall l o p d, o_domain o p = Some d -> o_domain (register_all l o) p = Some d.
Proof.
  unfold register_all. induction l as [|s l IH]; intros o p d H; cbn [fold_left]; [exact H|].
  apply IH. apply register_pinned. exact H.
Qed.

Lemma register_sound : forall sia o, sound_bindings o -> sound_bindings (register sia o).
Proof.
  intros sia o S.
  destruct (register_cases sia o) as [[-> _]|(m & d & Hdm & [[_ ->]|(p0 & _ & Hp & ->)])]; try exact S.
  intros p mm. unfold with_job, with_server. cbn [o_fetch o_domain].
  destruct (beq p p0) eqn:E; [apply beq_eq in E; subst p0|].
  - rewrite !kset_same. intros E'. injection E' as <-.
    destruct (domain_module_spec _ _ _ Hdm) as (h & -> & M). exists h. auto.
  - assert (p <> p0) by (intros ->; rewrite beq_refl in E; discriminate).
    rewrite !kset_other by assumption. apply S.
Qed.

Lemma register_all_sound : forall l o, sound_bindings o -> sound_bindings (register_all l o).
Proof.
  unfold register_all. induction l as [|s l IH]; intros o H; cbn [fold_left]; [exact H|].
  apply IH. apply register_sound. exact H.
Qed.

Section Rounds.
Variable failover : bool.
Variable fetched : bytes -> bytes -> Z -> rresult -> Prop.
Variable workers : nat.
Notation round := (round failover fetched workers).
Notation rounds := (rounds failover fetched workers).

Lemma round_pinned : forall o o' p d, round o o' -> o_domain o p = Some d -> o_domain o' p = Some d.
Proof.
  intros o o' p d H E. destruct H. cbn [o_domain]. apply register_all_pinned. exact E.
Qed.

Theorem pinned : forall o o' p d, rounds o o' -> o_domain o p = Some d -> o_domain o' p = Some d.
Proof.
  intros o o' p d H. induction H; intros E; [exact E|]. eapply round_pinned; eauto.
Qed.

Theorem bindings : forall o o', rounds o o' -> sound_bindings o -> sound_bindings o'.
Proof.
  intros o o' H S. induction H as [|o o1 o2 H IH R]; [exact S|]. specialize (IH S).
  destruct R. intros q m. cbn [o_fetch o_domain].
  apply register_all_sound. exact IH.
Qed.
End Rounds.
