(** The map from addresses to local places. *)
From Coq Require Import List ZArith Lia Bool Permutation.
From Verif.Model Require Import Base Str TalText Paths.
From Verif.Spec Require Import MapSpec.
From Verif.Proofs Require Import StrProofs PathProofs CacheThm.
Import ListNotations.
Open Scope Z_scope.

Lemma pieces_split : forall s, pieces s (split_on 44 s).
Proof.
  intros s. remember (split_on 44 s) as l eqn:E. revert s E. induction l as [|a l IH]; intros s E.
  - symmetry in E. now apply split_nonempty in E.
  - pose proof (split_clean 44 s) as C. rewrite <- E in C. inversion C as [|? ? C1 C2]; subst.
    pose proof (join_split 44 s) as J. rewrite <- E in J. destruct l as [|b l].
    + cbn in J. subst. constructor. exact C1.
    + change (a ++ 44 :: join [44] (b :: l) = s) in J. subst s. constructor; [exact C1|]. apply IH.
      symmetry. apply split_join; [discriminate|exact C2].
Qed.
Lemma pieces_fun : forall s l, pieces s l -> l = split_on 44 s.
Proof.
  intros s l H. induction H as [s N|s t l N H IH].
  - symmetry. now apply split_single.
  - rewrite split_app_sep, (split_single _ _ N), <- IH. reflexivity.
Qed.

Lemma says_split : forall e k v, says e k v <-> split_on 61 e = [k; v].
Proof.
  intros e k v. split.
  - intros (-> & K & V). rewrite split_app_sep, !split_single by assumption. reflexivity.
  - intros H. pose proof (split_clean 61 e) as C. rewrite H in C. inversion C as [|? ? C1 C2]; subst. inversion C2; subst.
    pose proof (join_split 61 e) as J. rewrite H in J. cbn in J. split; [symmetry; exact J|auto].
Qed.

Definition add_piece (m : list (bytes * bytes)) (e : bytes) : list (bytes * bytes) :=
  match split_on 61 e with
  | [k; v] => filter (fun kv => negb (beq (fst kv) k)) m ++ [(k, v)]
  | _ => m
  end.
Lemma parse_pieces : forall s, parse_map_dir s = fold_left add_piece (split_on 44 s) [].
Proof. reflexivity. Qed.

Lemma add_piece_spec : forall m e,
  (exists k v, says e k v /\ add_piece m e = filter (fun kv => negb (beq (fst kv) k)) m ++ [(k, v)]) \/
  ((forall k v, ~ says e k v) /\ add_piece m e = m).
Proof.
  intros m e. unfold add_piece. destruct (split_on 61 e) as [|k [|v [|x t]]] eqn:E.
  - right. split; [|reflexivity]. intros k v S. apply says_split in S. congruence.
  - right. split; [|reflexivity]. intros k' v S. apply says_split in S. congruence.
  - left. exists k, v. split; [now apply says_split|reflexivity].
  - right. split; [|reflexivity]. intros k' v' S. apply says_split in S. congruence.
Qed.

Lemma says_fun : forall e k v k' v', says e k v -> says e k' v' -> k = k' /\ v = v'.
Proof. intros e k v k' v' A B. apply says_split in A, B. rewrite A in B. injection B as -> ->. auto. Qed.

Lemma fold_pieces : forall l, NoDup (map fst (fold_left add_piece l [])) /\
  forall k v, In (k, v) (fold_left add_piece l []) <-> maps_to l k v.
Proof.
  intros l. induction l as [|e l (ND & IH)] using rev_ind.
  - split; [constructor|]. intros k v. split; [intros []|]. intros (a & p & b & E & _). destruct a; discriminate.
  - rewrite fold_left_app. cbn [fold_left]. set (m := fold_left add_piece l []) in *.
    assert (OLD : forall k v, (forall w, ~ says e k w) -> (maps_to (l ++ [e]) k v <-> maps_to l k v)).
    { intros k v NS. split.
      - intros (a & p & b & E & S & N). destruct b as [|b' x _] using rev_ind.
        + apply app_inj_tail in E as (_ & ->). now apply NS in S.
        + rewrite app_comm_cons, app_assoc in E. apply app_inj_tail in E as (-> & ->).
          exists a, p, x. split; [reflexivity|]. split; [exact S|]. intros y w I. apply N. apply in_or_app. now left.
      - intros (a & p & b & -> & S & N). exists a, p, (b ++ [e]). rewrite <- app_assoc. split; [reflexivity|]. split; [exact S|].
        intros y w I. apply in_app_iff in I as [I|[<-|[]]]; auto. }
    destruct (add_piece_spec m e) as [(k & v & S & ->)|(N & ->)].
    + split.
      * rewrite map_app. cbn [map fst]. assert (H : NoDup (map fst (filter (fun kv => negb (beq (fst kv) k)) m))).
        { clear - ND. induction m as [|x m IH]; [constructor|]. cbn [map filter] in *. inversion ND; subst.
          destruct (negb (beq (fst x) k)); [|now apply IH]. cbn [map]. constructor; [|now apply IH].
          intros I. apply in_map_iff in I as (y & Y & I). apply filter_In in I as (I & _). apply H1. apply in_map_iff. eauto. }
        revert H. assert (NI : ~ In k (map fst (filter (fun kv => negb (beq (fst kv) k)) m))).
        { intros I. apply in_map_iff in I as (y & Y & I). apply filter_In in I as (_ & I). rewrite Y in I.
          rewrite (proj2 (beq_eq k k) eq_refl) in I. discriminate. }
        generalize (map fst (filter (fun kv => negb (beq (fst kv) k)) m)) as ks, NI. clear. intros ks NI ND.
        induction ks as [|x ks IH]; cbn [app]; [constructor; auto|]. inversion ND; subst. constructor.
        -- rewrite in_app_iff. intros [I|[<-|[]]]; [contradiction|]. apply NI. now left.
        -- apply IH; [intros I; apply NI; now right|assumption].
      * intros k' v'. rewrite in_app_iff, filter_In. cbn [fst In]. split.
        -- intros [(I & B)|[I|[]]].
           ++ apply OLD; [|now apply IH]. intros w S'. destruct (says_fun _ _ _ _ _ S S') as (-> & _).
              rewrite (proj2 (beq_eq k' k') eq_refl) in B. discriminate.
           ++ injection I as <- <-. exists l, e, []. split; [reflexivity|]. split; [exact S|intros ? ? []].
        -- intros M. destruct (beq k' k) eqn:B.
           ++ apply beq_eq in B. subst k'. right. left. destruct M as (a & p & b & E & S' & N). destruct b as [|b' x _] using rev_ind.
              ** apply app_inj_tail in E as (_ & <-). destruct (says_fun _ _ _ _ _ S S') as (_ & ->). reflexivity.
              ** rewrite app_comm_cons, app_assoc in E. apply app_inj_tail in E as (_ & <-). exfalso.
                 apply (N e v); [apply in_or_app; right; now left|exact S].
           ++ left. split; [|reflexivity]. apply IH. apply OLD; [|exact M]. intros w S'. destruct (says_fun _ _ _ _ _ S S') as (-> & _).
              rewrite (proj2 (beq_eq k' k') eq_refl) in B. discriminate.
    + split; [exact ND|]. intros k v. rewrite IH. symmetry. apply OLD. intros w. apply N.
Qed.

Lemma parse_map_spec : forall s l, pieces s l -> NoDup (map fst (parse_map_dir s)) /\
  forall k v, In (k, v) (parse_map_dir s) <-> maps_to l k v.
Proof. intros s l P. rewrite (pieces_fun _ _ P), parse_pieces. apply fold_pieces. Qed.

(** ** Places *)
Lemma map_dir_slash : forall v, with_slash v (map_dir v).
Proof.
  intros v. unfold map_dir. destruct (has_suffix v [slash]) eqn:E.
  - left. split; [reflexivity|]. apply has_suffix_spec in E as (x & ->). exists x. reflexivity.
  - right. split; [reflexivity|]. intros x ->. assert (has_suffix (x ++ [47]) [slash] = true) by (apply has_suffix_spec; exists x; reflexivity).
    congruence.
Qed.
Lemma with_slash_fun : forall v d, with_slash v d -> d = map_dir v.
Proof.
  intros v d H. destruct (map_dir_slash v) as [(-> & x & E)|(-> & N)]; destruct H as [(-> & y & F)|(-> & M)]; auto.
  - now apply M in E.
  - now apply N in F.
Qed.
Lemma within_contains : forall p s, within p s <-> contains s p = true.
Proof. intros p s. symmetry. apply contains_spec. Qed.
Lemma not_within : forall p s, ~ within p s -> contains s p = false.
Proof. intros p s H. destruct (contains s p) eqn:E; [|reflexivity]. exfalso. apply H. now apply within_contains. Qed.

Lemma local_none : forall m p, (forall k v, In (k, v) m -> ~ within k p) -> get_local_path m p = p.
Proof.
  intros m p H. unfold get_local_path. induction m as [|(k & v) m IH]; cbn [fold_left fst snd]; [reflexivity|].
  unfold replace_all at 2. rewrite replace_none by (apply not_within, (H k v); now left). apply IH. intros k' v' I. apply (H k' v'). now right.
Qed.
Lemma replace_head : forall k d r, k <> [] -> ~ within k r -> replace_all k d (k ++ r) = d ++ r.
Proof.
  intros k d r N W. unfold replace_all. destruct k as [|c k]; [congruence|]. cbn [app length replace_fuel].
  change (c :: k ++ r) with ((c :: k) ++ r). rewrite has_prefix_app. cbn [skipn app].
  rewrite skipn_app, skipn_all, Nat.sub_diag. cbn [app skipn]. rewrite replace_none by (now apply not_within). reflexivity.
Qed.
Lemma local_app : forall a b p, get_local_path (a ++ b) p = get_local_path b (get_local_path a p).
Proof. intros. apply fold_left_app. Qed.
Lemma local_one : forall m k v r, NoDup (map fst m) -> In (k, v) m -> k <> [] -> ~ within k r ->
  (forall k' v', In (k', v') m -> k' <> k -> ~ within k' (k ++ r) /\ ~ within k' (map_dir v ++ r)) ->
  get_local_path m (k ++ r) = map_dir v ++ r.
Proof.
  intros m k v r ND I NE W O. apply in_split in I as (a & b & ->). rewrite map_app in ND. cbn [map fst] in ND.
  assert (NK := NoDup_remove_2 _ _ _ ND).
  assert (A : get_local_path a (k ++ r) = k ++ r).
  { apply local_none. intros k' v' I'. apply (O k' v'); [apply in_or_app; now left|]. intros ->. apply NK. apply in_or_app. left. apply in_map_iff. exists (k, v'). auto. }
  assert (B : get_local_path b (map_dir v ++ r) = map_dir v ++ r).
  { apply local_none. intros k' v' I'. apply (O k' v'); [apply in_or_app; right; now right|]. intros ->. apply NK. apply in_or_app. right. apply in_map_iff. exists (k, v'). auto. }
  rewrite local_app, A. change (get_local_path b (replace_all k (map_dir v) (k ++ r)) = map_dir v ++ r).
  rewrite replace_head by assumption. exact B.
Qed.

(** From the text of the flag; [m] is the map in some order. *)
Lemma place_below : forall s l m k v d r, pieces s l -> Permutation m (parse_map_dir s) ->
  maps_to l k v -> with_slash v d -> k <> [] -> ~ within k r ->
  (forall k' v', maps_to l k' v' -> k' <> k -> ~ within k' (k ++ r) /\ ~ within k' (d ++ r)) ->
  get_local_path m (k ++ r) = d ++ r.
Proof.
  intros s l m k v d r P PM M D NE W O. destruct (parse_map_spec _ _ P) as (ND & PI). rewrite (with_slash_fun _ _ D) in *.
  apply local_one; auto.
  - eapply Permutation_NoDup; [|exact ND]. apply Permutation_map. now symmetry.
  - eapply Permutation_in; [symmetry; exact PM|]. now apply PI.
  - intros k' v' I. apply O with (v' := v'). apply PI. eapply Permutation_in; [exact PM|exact I].
Qed.
Lemma place_none : forall s l m p, pieces s l -> Permutation m (parse_map_dir s) ->
  (forall k v, maps_to l k v -> ~ within k p) -> get_local_path m p = p.
Proof.
  intros s l m p P PM O. destruct (parse_map_spec _ _ P) as (ND & PI). apply local_none. intros k v I. apply (O k v), PI.
  eapply Permutation_in; [exact PM|exact I].
Qed.
