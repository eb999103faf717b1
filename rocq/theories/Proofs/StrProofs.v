(** Facts about Go strings and string maps. *)
From Coq Require Import Lia DecimalFacts DecimalZ.
From Verif.Model Require Import Base Str.

Lemma beq_eq : forall a b, beq a b = true <-> a = b.
Proof.
  induction a as [|x a IH]; destruct b as [|y b]; cbn; split; try congruence; intros H.
  - apply andb_true_iff in H. destruct H as [E H]. apply Z.eqb_eq in E. apply IH in H. congruence.
  - inversion H; subst. rewrite Z.eqb_refl. cbn. now apply IH.
Qed.

Lemma beq_refl : forall a, beq a a = true.
Proof. intros. now apply beq_eq. Qed.

Lemma beq_neq : forall a b, beq a b = false <-> a <> b.
Proof.
  intros a b. rewrite <- beq_eq. destruct (beq a b); split; congruence.
Qed.

Lemma beq_sym : forall a b, beq a b = beq b a.
Proof.
  intros a b. destruct (beq a b) eqn:E.
  - apply beq_eq in E. subst. now rewrite beq_refl.
  - symmetry. apply beq_neq. apply beq_neq in E. congruence.
Qed.

Lemma beq_dec : forall a b : bytes, {a = b} + {a <> b}.
Proof. intros. destruct (beq a b) eqn:E; [left; now apply beq_eq | right; now apply beq_neq]. Qed.

Lemma kset_eq : forall A (m : kmap A) k a, kset m k a k = Some a.
Proof. intros. unfold kset. now rewrite beq_refl. Qed.
Lemma kset_neq : forall A (m : kmap A) k k' a, k' <> k -> kset m k a k' = m k'.
Proof. intros. unfold kset. apply beq_neq in H. now rewrite H. Qed.
Lemma kdel_eq : forall A (m : kmap A) k, kdel m k k = None.
Proof. intros. unfold kdel. now rewrite beq_refl. Qed.
Lemma kdel_neq : forall A (m : kmap A) k k', k' <> k -> kdel m k k' = m k'.
Proof. intros. unfold kdel. apply beq_neq in H. now rewrite H. Qed.
Lemma kset_some : forall A (m : kmap A) k a k' b,
  kset m k a k' = Some b -> (k' = k /\ b = a) \/ (k' <> k /\ m k' = Some b).
Proof.
  intros A m k a k' b H. destruct (beq_dec k' k) as [->|N].
  - rewrite kset_eq in H. left. split; congruence.
  - rewrite kset_neq in H by auto. auto.
Qed.
Lemma kdel_some : forall A (m : kmap A) k k' b,
  kdel m k k' = Some b -> k' <> k /\ m k' = Some b.
Proof.
  intros A m k k' b H. destruct (beq_dec k' k) as [->|N].
  - rewrite kdel_eq in H. discriminate.
  - rewrite kdel_neq in H by auto. auto.
Qed.

Lemma has_prefix_app : forall p s, has_prefix (p ++ s) p = true.
Proof. induction p; cbn; [now destruct s|]. intros. now rewrite Z.eqb_refl, IHp. Qed.

Lemma has_prefix_spec : forall p s, has_prefix s p = true <-> exists r, s = p ++ r.
Proof.
  induction p as [|y p IH]; intros s.
  - destruct s; cbn; split; eauto.
  - destruct s as [|x s]; cbn.
    + split; [discriminate|]. intros [r H]. discriminate.
    + rewrite andb_true_iff, Z.eqb_eq, IH. split.
      * intros [-> [r ->]]. now exists r.
      * intros [r H]. inversion H; subst. eauto.
Qed.

Lemma contains_spec : forall s p, contains s p = true <-> exists a b, s = a ++ p ++ b.
Proof.
  induction s as [|x s IH]; intros p.
  - cbn [contains]. rewrite orb_false_r, has_prefix_spec. split.
    + intros [r H]. exists [], r. exact H.
    + intros (a & b & H). symmetry in H. apply app_eq_nil in H. destruct H as [-> H]. exists b. now rewrite H.
  - cbn [contains]. rewrite orb_true_iff, has_prefix_spec, IH. split.
    + intros [[r H]|(a & b & H)]; [exists [], r; exact H|exists (x :: a), b; cbn; congruence].
    + intros (a & b & H). destruct a as [|y a]; [left; eauto|].
      right. inversion H; subst. eauto.
Qed.

Lemma has_suffix_spec : forall s p, has_suffix s p = true <-> exists a, s = a ++ p.
Proof.
  intros s p. unfold has_suffix. rewrite has_prefix_spec. split.
  - intros [r H]. exists (rev r). rewrite <- (rev_involutive s), H, rev_app_distr, rev_involutive. reflexivity.
  - intros [a ->]. exists (rev a). apply rev_app_distr.
Qed.

Lemma uint_bytes_inj : forall u v, uint_bytes u = uint_bytes v -> u = v.
Proof. induction u; destruct v; cbn; intros H; inversion H; f_equal; auto. Qed.

Lemma uint_bytes_digits : forall u, Forall (fun b => 48 <= b <= 57) (uint_bytes u).
Proof. induction u; cbn; constructor; auto; lia. Qed.

Lemma dec_inj : forall a b, dec a = dec b -> a = b.
Proof.
  intros a b. unfold dec. intros H.
  rewrite <- (DecimalZ.of_to a), <- (DecimalZ.of_to b).
  destruct (Z.to_int a) as [u|u]; destruct (Z.to_int b) as [v|v].
  - f_equal. f_equal. now apply uint_bytes_inj.
  - pose proof (uint_bytes_digits u) as D. rewrite H in D. inversion D. lia.
  - pose proof (uint_bytes_digits v) as D. rewrite <- H in D. inversion D. lia.
  - inversion H. f_equal. f_equal. now apply uint_bytes_inj.
Qed.

(** Keys formed by concatenation are unambiguous for prefixes of one length. *)
Lemma app_key_inj : forall a1 a2 s1 s2 : bytes,
  length a1 = length a2 -> a1 ++ s1 = a2 ++ s2 -> a1 = a2 /\ s1 = s2.
Proof.
  induction a1 as [|x a1 IH]; destruct a2 as [|y a2]; cbn; intros s1 s2 L H; try discriminate; auto.
  inversion H; subst. destruct (IH a2 s1 s2) as [-> ->]; auto.
Qed.

Lemma str_ok : forall s, bytes_ok (str s) = true.
Proof.
  induction s as [|a s IH]; [reflexivity|].
  cbn [str bytes_ok forallb]. rewrite andb_true_iff. split; [|exact IH].
  unfold byte_ok. pose proof (Ascii.N_ascii_bounded a).
  apply andb_true_iff. split; [apply Z.leb_le|apply Z.ltb_lt]; lia.
Qed.
