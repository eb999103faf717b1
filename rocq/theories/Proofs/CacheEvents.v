(** What a sequence of delivered elements does to the cache. *)
From Coq Require Import Lia String.
From Verif.Model Require Import Base Str Tal TalText Paths Validator Cache Rrdp.
From Verif.Spec Require Import B64 PathSpec RrdpSpec.
From Verif.Proofs Require Import StrProofs RrdpProofs RrdpCrash RrdpThm PathProofs CacheProofs CacheThm.

Lemma dirs_keep_file : forall ps s s1 v l x, exec (map ODir ps) s = (s1, v) -> s l = Some (File x) -> s1 l = Some (File x).
Proof.
  induction ps as [|p ps IH]; intros s s1 v l x E H; [injection E as <- <-; exact H|].
  rewrite exec_dirs_cons in E. destruct (loc_dec l p) as [->|N].
  - rewrite H in E. injection E as <- <-. exact H.
  - destruct (s p) as [[|z]|]; try (injection E as <- <-; exact H);
      (eapply IH; [exact E|]; rewrite fset_neq by exact N; exact H).
Qed.

Section Events.
Variable cwd : loc.
Variables base domain : bytes.
Hypothesis Hbase : base <> [].
Let B := resolve cwd base.
Notation cb := (octo_cb cwd base domain).

Lemma octo_rooted : forall e s s' v, rooted_fs s -> cb e s = (s', v) -> rooted_fs s'.
Proof.
  intros e s s' v R E. unfold octo_cb, callback_ops in E.
  destruct (negb (contains (e_path e) domain)); [injection E as <- <-; exact R|].
  destruct (write_cases cwd base Hbase _ _ _ _ _ R E) as [(_ & -> & _)|(f & d & x & s1 & v1 & _ & _ & E1 & C)]; [exact R|].
  assert (R1 : rooted_fs s1).
  { unfold rooted_fs in *. pose proof (exec_dirs_keep (prefixes (fold_left walk d (resolve cwd base))) s [] R) as K.
    rewrite E1 in K. exact K. }
  destruct C as [(-> & _)|[(_ & -> & _)|(_ & _ & _ & _ & _ & _ & ->)]]; try exact R1.
  unfold rooted_fs in *. rewrite fset_neq; [exact R1|]. destruct (resolve cwd base); [destruct (names_of d)|]; discriminate.
Qed.

(** One delivered element *)
Lemma octo_here : forall e f s s' v, rooted_fs s -> cb e s = (s', v) -> v <> VFatal ->
  e_path e = rsync_scheme ++ f -> contains (e_path e) domain = true -> bad_path f = false ->
  s' (resolve cwd (path_join base f)) = Some (File (e_data e)) \/
  s' (resolve cwd (path_join base f)) = Some Dir.
Proof.
  intros e f s s' v R E V Ef Ed Bf. unfold octo_cb, callback_ops in E. rewrite Ed, Ef in E. cbn [negb] in E.
  destruct (split_last f) as (d & x & Es & _).
  rewrite (write_ops_shape cwd base Hbase f d x _ Es), Bf, exec_app in E.
  rewrite resolve_join, Es, fold_walk_app by exact Hbase. cbn [fold_left].
  destruct (exec (map ODir (prefixes (fold_left walk d (resolve cwd base)))) s) as [s1 v1] eqn:E1.
  pose proof (exec_dirs_verdict (prefixes (fold_left walk d (resolve cwd base))) s) as NV. rewrite E1 in NV. cbn [snd] in NV.
  destruct v1; [| congruence | injection E as <- <-; congruence].
  unfold exec in E. cbn [exec_with step] in E.
  destruct (s1 (walk (fold_left walk d (resolve cwd base)) x)) as [[|y]|] eqn:Ey.
  - injection E as <- <-. right. exact Ey.
  - injection E as <- <-. left. apply fset_eq.
  - injection E as <- <-. left. apply fset_eq.
Qed.

Lemma octo_other : forall e s s' v l, rooted_fs s -> cb e s = (s', v) ->
  (forall f, e_path e = rsync_scheme ++ f -> resolve cwd (path_join base f) <> l) ->
  (forall x, s l = Some (File x) <-> s' l = Some (File x)) /\ (s l <> None -> s' l <> None).
Proof.
  intros e s s' v l R E N. unfold octo_cb, callback_ops in E.
  destruct (negb (contains (e_path e) domain)); [injection E as <- <-; intuition|].
  destruct (write_cases cwd base Hbase _ _ _ _ _ R E) as [(_ & -> & _)|(f & d & x & s1 & v1 & Ef & Es & E1 & C)]; [intuition|].
  assert (K : (forall x, s l = Some (File x) <-> s1 l = Some (File x)) /\ (s l <> None -> s1 l <> None)).
  { split.
    - intros y. split; intros H.
      + eapply dirs_keep_file; eauto.
      + eapply dirs_no_new_file; eauto.
    - intros H. pose proof (exec_dirs_change (prefixes (fold_left walk d (resolve cwd base))) s l) as G. rewrite E1 in G. cbn [fst] in G.
      intros Q. rewrite G in Q by congruence. discriminate. }
  assert (P : resolve cwd (path_join base f) <> l) by (apply N; exact Ef).
  destruct C as [(-> & _)|[(_ & -> & _)|(_ & _ & _ & P' & _ & W & ->)]]; [exact K|exact K|].
  rewrite resolve_join, Es, fold_walk_app, W in P by exact Hbase. cbn [fold_left] in P.
  rewrite (walk_name _ x P'), <- app_assoc in P. rewrite fset_neq by congruence. exact K.
Qed.

Lemma plays_rooted : forall s es s', plays cb s es s' -> rooted_fs s -> rooted_fs s'.
Proof. induction 1 as [|s e s1 v es s' E T P IH]; intros R; [exact R|]. apply IH. eapply octo_rooted; eauto. Qed.

Lemma plays_other : forall s es s' l, plays cb s es s' -> rooted_fs s ->
  (forall e f, In e es -> e_path e = rsync_scheme ++ f -> resolve cwd (path_join base f) <> l) ->
  (forall x, s l = Some (File x) <-> s' l = Some (File x)) /\ (s l <> None -> s' l <> None).
Proof.
  induction 1 as [|s e s1 v es s' E T P IH]; intros R N; [intuition|].
  destruct (octo_other e s s1 v l R E) as [A A']; [intros; apply (N e); [left; reflexivity|assumption]|].
  destruct IH as [C C']; [eapply octo_rooted; eauto|intros; apply (N e0); [right|]; assumption|].
  split; [|auto]. intros x. rewrite A, C. reflexivity.
Qed.

Lemma plays_split : forall a b s s', plays cb s (a ++ b) s' -> exists s1, plays cb s a s1 /\ plays cb s1 b s'.
Proof.
  induction a as [|e a IH]; intros b s s' H; [exists s; split; [constructor|exact H]|].
  cbn [app] in H. inversion H; subst. edestruct IH as (s2 & P1 & P2); [eassumption|].
  exists s2. split; [econstructor; eauto|exact P2].
Qed.

(** The last element for a place decides its content. *)
Theorem last_event : forall s a e b s' f, rooted_fs s -> plays cb s (a ++ e :: b) s' ->
  e_path e = rsync_scheme ++ f -> contains (e_path e) domain = true -> bad_path f = false ->
  (forall e' f', In e' b -> e_path e' = rsync_scheme ++ f' -> resolve cwd (path_join base f') <> resolve cwd (path_join base f)) ->
  s' (resolve cwd (path_join base f)) = Some (File (e_data e)) \/
  s' (resolve cwd (path_join base f)) = Some Dir.
Proof.
  intros s a e b s' f R P Ef Ed Bf N. apply plays_split in P. destruct P as (s1 & P1 & P2).
  inversion P2 as [|? ? s2 v ? ? H2 H3 H5]; subst.
  assert (R1 : rooted_fs s1) by (eapply plays_rooted; eauto).
  assert (V : v <> VFatal) by (destruct H3 as [->|[-> _]]; discriminate).
  destruct (plays_other _ _ _ (resolve cwd (path_join base f)) H5) as [K K']; [eapply octo_rooted; eauto|exact N|].
  destruct (octo_here _ _ _ _ _ R1 H2 V Ef Ed Bf) as [G|G].
  - left. apply K. exact G.
  - right. destruct (s' (resolve cwd (path_join base f))) as [[|y]|] eqn:Ey; [reflexivity| |exfalso; apply K'; [congruence|reflexivity]].
    pose proof (proj2 (K y) eq_refl) as Q. congruence.
Qed.

(** The end of the process *)
Theorem fatal_scheme : forall e s, is_rsync_url (e_path e) = false -> contains (e_path e) domain = true ->
  cb e s = (s, VFatal).
Proof.
  intros e s N C. unfold octo_cb, callback_ops. rewrite C. cbn [negb]. unfold write_ops, extract_folders. rewrite N. reflexivity.
Qed.

Theorem no_fatal : forall e s s' v f d x, cb e s = (s', v) ->
  e_path e = rsync_scheme ++ f -> split_on slash f = d ++ [x] ->
  (forall p r y, fold_left walk d B = p ++ r -> s p <> Some (File y)) -> v <> VFatal.
Proof.
  intros e s s' v f d x E Ef Es N. unfold octo_cb, callback_ops in E.
  destruct (negb (contains (e_path e) domain)); [injection E as <- <-; discriminate|].
  rewrite Ef, (write_ops_shape cwd base Hbase f d x _ Es), exec_app in E.
  pose proof (exec_dirs_ok (prefixes (fold_left walk d (resolve cwd base))) s) as K.
  destruct (exec (map ODir (prefixes (fold_left walk d (resolve cwd base)))) s) as [s1 v1]. cbn [snd] in K.
  rewrite K in E.
  2: { intros p y Hp. apply prefixes_in in Hp. destruct Hp as (_ & r & Er). exact (N p r y Er). }
  unfold exec in E. destruct (bad_path f); cbn [exec_with step] in E; [injection E as <- <-; discriminate|].
  destruct (s1 (walk (fold_left walk d (resolve cwd base)) x)) as [[|y]|]; injection E as <- <-; discriminate.
Qed.

Theorem fatal_nested : forall e s s' v f d x p r y, cb e s = (s', v) ->
  e_path e = rsync_scheme ++ f -> contains (e_path e) domain = true -> split_on slash f = d ++ [x] ->
  fold_left walk d B = p ++ r -> p <> [] -> s p = Some (File y) -> v = VFatal.
Proof.
  intros e s s' v f d x p r y E Ef Ed Es Ep Np Sp. unfold octo_cb, callback_ops in E. rewrite Ed in E. cbn [negb] in E.
  rewrite Ef, (write_ops_shape cwd base Hbase f d x _ Es), exec_app in E.
  pose proof (exec_dirs_blocked (prefixes (fold_left walk d (resolve cwd base))) s p y) as K.
  pose proof (exec_dirs_verdict (prefixes (fold_left walk d (resolve cwd base))) s) as NV.
  destruct (exec (map ODir (prefixes (fold_left walk d (resolve cwd base)))) s) as [s1 v1]. cbn [snd] in *.
  assert (v1 <> VOk). { apply K; [|exact Sp]. apply prefixes_in. split; [exact Np|exists r; exact Ep]. }
  destruct v1; try congruence.
Qed.
End Events.

(** An update that ends the process *)
Theorem exits_on_scheme : forall cwd base domain snap delta n ls last s u t ps ws d,
  needs_snapshot n ls last -> plain_notif n -> plain_serial last ->
  snap (n_snapshot n) = Some ((u, t) :: ps, ws) -> b64_text (strip t) d ->
  is_rsync_url u = false -> contains u domain = true ->
  fetch_rrdp fs (octo_cb cwd base domain) snap delta (Some n) ls last s = (s, Exited).
Proof.
  intros cwd base domain snap delta n ls last s u t ps ws d N Hn Hl E D U C.
  destruct (fetch_cases fs (octo_cb cwd base domain) snap delta n ls last s Hn Hl) as [(-> & _)|(G & _)]; [|contradiction].
  unfold snapshot_run. rewrite E. unfold deliver_doc. cbn [fst snd deliver].
  apply Base64Proofs.decode_rrdp_base64_exact in D. rewrite D.
  rewrite fatal_scheme by assumption. reflexivity.
Qed.

(** An announced serial below the stored one is ignored and the update
    succeeds. *)
Theorem rollback_ignored : forall St cb snap delta n last s,
  plain_notif n -> plain_serial last -> last <> 0 -> n_serial n < last ->
  fetch_rrdp St cb snap delta (Some n) (n_session n) last s = (s, Done (n_session n) last).
Proof.
  intros St cb snap delta n last s Hn Hl N L.
  destruct (fetch_cases St cb snap delta n (n_session n) last s Hn Hl) as [(E & [G|G])|(G & [(_ & E)|(R & _)])]; [| |exact E|lia].
  - destruct G as [G|[G|(k & G & _)]]; [contradiction|congruence|lia].
  - unfold plain_serial in *. lia.
Qed.
