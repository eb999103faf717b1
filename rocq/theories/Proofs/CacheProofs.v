(** What a write does to the cache. *)
From Coq Require Import Lia String.
From Verif.Model Require Import Base Str Tal TalText Paths Validator Cache.
From Verif.Spec Require Import PathSpec.
From Verif.Proofs Require Import StrProofs RrdpCrash PathProofs.

Lemma exec_app : forall a b s, exec (a ++ b) s =
  match exec a s with (s', VOk) => exec b s' | x => x end.
Proof.
  unfold exec. induction a as [|o a IH]; intros b s; cbn [exec_with app]; [reflexivity|].
  destruct (step o s) as [s' [| |]]; auto.
Qed.

Lemma exec_dirs_cons : forall p ps s, exec (map ODir (p :: ps)) s =
  match s p with Some (File _) => (s, VFatal) | _ => exec (map ODir ps) (fset s p Dir) end.
Proof. intros. unfold exec. cbn [map exec_with step]. destruct (s p) as [[|]|]; reflexivity. Qed.

Lemma exec_dirs_keep : forall ps s l, s l = Some Dir -> fst (exec (map ODir ps) s) l = Some Dir.
Proof.
  induction ps as [|p ps IH]; intros s l H; [exact H|]. rewrite exec_dirs_cons.
  destruct (loc_dec l p) as [->|N].
  - rewrite H. apply IH. apply fset_eq.
  - destruct (s p) as [[|]|]; try (apply IH; rewrite fset_neq by exact N; exact H). exact H.
Qed.

Lemma exec_dirs_made : forall ps s s1, exec (map ODir ps) s = (s1, VOk) -> forall p, In p ps -> s1 p = Some Dir.
Proof.
  induction ps as [|q ps IH]; intros s s1 H p Hp; [destruct Hp|]. rewrite exec_dirs_cons in H.
  destruct (s q) as [[|]|]; try discriminate;
  (destruct Hp as [<-|Hp]; [|exact (IH _ _ H p Hp)]);
  pose proof (exec_dirs_keep ps (fset s q Dir) q (fset_eq _ _ _)) as K; rewrite H in K; exact K.
Qed.

Lemma exec_dirs_other : forall ps s l, ~ In l ps -> fst (exec (map ODir ps) s) l = s l.
Proof.
  induction ps as [|p ps IH]; intros s l H; [reflexivity|]. rewrite exec_dirs_cons.
  assert (N : l <> p) by (intros ->; apply H; left; reflexivity).
  destruct (s p) as [[|]|]; try reflexivity;
  (rewrite IH by (intros G; apply H; right; exact G)); apply fset_neq; exact N.
Qed.

Lemma exec_dirs_change : forall ps s l, fst (exec (map ODir ps) s) l <> s l -> fst (exec (map ODir ps) s) l = Some Dir.
Proof.
  induction ps as [|p ps IH]; intros s l H; [exfalso; apply H; reflexivity|].
  rewrite exec_dirs_cons in *. destruct (s p) as [[|]|] eqn:E; try (exfalso; apply H; reflexivity);
  (destruct (loc_dec l p) as [->|N]; [apply exec_dirs_keep, fset_eq|]);
  (apply IH; rewrite fset_neq by exact N; exact H).
Qed.

Lemma exec_dirs_verdict : forall ps s, snd (exec (map ODir ps) s) <> VErr.
Proof.
  induction ps as [|p ps IH]; intros s; [discriminate|]. rewrite exec_dirs_cons.
  destruct (s p) as [[|]|]; try apply IH. discriminate.
Qed.

Lemma exec_dirs_ok : forall ps s, (forall p x, In p ps -> s p <> Some (File x)) -> snd (exec (map ODir ps) s) = VOk.
Proof.
  induction ps as [|p ps IH]; intros s H; [reflexivity|]. rewrite exec_dirs_cons.
  pose proof (H p) as Hp.
  assert (G : snd (exec (map ODir ps) (fset s p Dir)) = VOk).
  { apply IH. intros q x Hq. destruct (loc_dec q p) as [->|N]; [rewrite fset_eq; discriminate|].
    rewrite fset_neq by exact N. apply H. right. exact Hq. }
  destruct (s p) as [[|x]|]; auto. exfalso. exact (Hp x (or_introl eq_refl) eq_refl).
Qed.

Lemma exec_dirs_blocked : forall ps s l y, In l ps -> s l = Some (File y) -> snd (exec (map ODir ps) s) <> VOk.
Proof.
  induction ps as [|p ps IH]; intros s l y Il El; [destruct Il|].
  rewrite exec_dirs_cons. destruct Il as [->|Il]; [rewrite El; discriminate|].
  destruct (loc_dec l p) as [->|Np]; [rewrite El; discriminate|].
  destruct (s p) as [[|]|]; try discriminate; apply (IH _ l y Il); rewrite fset_neq by exact Np; exact El.
Qed.

Lemma prefixes_in : forall l p, In p (prefixes l) <-> p <> [] /\ exists r, l = p ++ r.
Proof.
  intros l p. unfold prefixes. rewrite in_map_iff. split.
  - intros (n & <- & Hn). apply in_seq in Hn. split.
    + destruct l as [|c l]; [cbn in Hn; lia|]. destruct n; [lia|discriminate].
    + exists (skipn n l). symmetry. apply firstn_skipn.
  - intros (N & r & ->). exists (length p). split.
    + rewrite firstn_app, firstn_all, Nat.sub_diag. cbn. apply app_nil_r.
    + apply in_seq. rewrite app_length. destruct p; [congruence|cbn; lia].
Qed.

Lemma removelast_prefix : forall A (l : list A), exists r, l = removelast l ++ r.
Proof.
  intros A l. destruct l as [|a l]; [exists []; reflexivity|]. exists [last (a :: l) a].
  apply app_removelast_last. discriminate.
Qed.

(** The parts of an address *)
Section Write.
Variable cwd : loc.
Variable base : bytes.
Hypothesis Hbase : base <> [].
Let B := resolve cwd base.

Lemma folder_place : forall d, Forall (fun c => ~ In slash c) d ->
  resolve cwd (path_join base (join [slash] d)) = fold_left walk d B.
Proof.
  intros d F. rewrite resolve_join by exact Hbase. destruct d as [|c d]; [reflexivity|].
  rewrite split_join; [reflexivity|discriminate|exact F].
Qed.

Lemma write_ops_shape : forall f d x data, split_on slash f = d ++ [x] ->
  write_ops cwd base (rsync_scheme ++ f) data =
  map ODir (prefixes (fold_left walk d B)) ++
  (if bad_path f then [OErr] else [OFile (walk (fold_left walk d B) x) data]).
Proof.
  intros f d x data E. unfold write_ops, extract_folders, extract_file, is_rsync_url.
  rewrite has_prefix_app, trim_scheme, E, removelast_last.
  assert (F : Forall (fun c => ~ In slash c) (d ++ [x])) by (rewrite <- E; apply split_clean).
  rewrite folder_place by (apply Forall_app in F; apply F).
  rewrite resolve_join by exact Hbase. rewrite E, fold_walk_app. reflexivity.
Qed.

(** After the directories are made, the place of [""], ["."] and [".."] is a
    directory. *)
Lemma dir_there : forall D s s1 x, rooted_fs s -> exec (map ODir (prefixes D)) s = (s1, VOk) ->
  plain_comp x = false -> s1 (walk D x) = Some Dir.
Proof.
  intros D s s1 x R E P.
  assert (G : forall p r, D = p ++ r -> s1 p = Some Dir).
  { intros [|c p] r Ep.
    - pose proof (exec_dirs_keep (prefixes D) s [] R) as K. rewrite E in K. exact K.
    - apply (exec_dirs_made _ _ _ E). apply prefixes_in. split; [discriminate|exists r; exact Ep]. }
  unfold walk. unfold plain_comp in P. apply negb_false_iff in P.
  destruct (beq x [] || beq x dot) eqn:E1; [apply (G D []); symmetry; apply app_nil_r|].
  cbn [orb] in P. rewrite P. destruct (removelast_prefix _ D) as (r & Er). exact (G _ r Er).
Qed.

Lemma write_cases : forall url data s s' v, rooted_fs s ->
  exec (write_ops cwd base url data) s = (s', v) ->
  (is_rsync_url url = false /\ s' = s /\ v = VFatal) \/
  exists f d x s1 v1, url = rsync_scheme ++ f /\ split_on slash f = d ++ [x] /\
    exec (map ODir (prefixes (fold_left walk d B))) s = (s1, v1) /\
    ((s' = s1 /\ v = v1 /\ v <> VOk) \/
     (v1 = VOk /\ s' = s1 /\ v = VErr) \/
     (v1 = VOk /\ v = VOk /\ bad_path f = false /\ plain_comp x = true /\ ~ In dotdot d /\
      fold_left walk d B = B ++ names_of d /\
      s' = fset s1 (B ++ names_of d ++ [x]) (File data))).
Proof.
  intros url data s s' v R E. destruct (rsync_url_cases url) as [(f & ->)|N].
  - right. destruct (split_last f) as (d & x & Ef & _).
    rewrite (write_ops_shape f d x data Ef) in E. rewrite exec_app in E.
    destruct (exec (map ODir (prefixes (fold_left walk d B))) s) as [s1 v1] eqn:E1.
    exists f, d, x, s1, v1. split; [reflexivity|split; [exact Ef|split; [exact E1|]]].
    destruct v1.
    + right. destruct (bad_path f) eqn:Bp.
      * left. unfold exec in E. cbn [exec_with step] in E. injection E as <- <-. auto.
      * destruct (plain_comp x) eqn:P.
        { assert (Nd : ~ In dotdot d) by (eapply good_dirs; eauto).
          rewrite (walk_name _ x P) in E. rewrite (walk_down d B Nd) in *. rewrite <- app_assoc in E.
          unfold exec in E. cbn [exec_with step] in E.
          destruct (s1 (B ++ names_of d ++ [x])) as [[|y]|] eqn:El.
          - injection E as <- <-. left. auto.
          - injection E as <- <-. right. split; [reflexivity|split; [reflexivity|]]. auto 6.
          - injection E as <- <-. right. split; [reflexivity|split; [reflexivity|]]. auto 6. }
        { left. pose proof (dir_there _ _ _ x R E1 P) as Dt.
          unfold exec in E. cbn [exec_with step] in E. rewrite Dt in E. injection E as <- <-. auto. }
    + left. injection E as <- <-. split; [reflexivity|split; [reflexivity|discriminate]].
    + left. injection E as <- <-. split; [reflexivity|split; [reflexivity|discriminate]].
  - left. split; [exact N|]. unfold write_ops, extract_folders in E. rewrite N in E.
    unfold exec in E. cbn [exec_with step] in E. injection E as <- <-. auto.
Qed.

Lemma dirs_no_new_file : forall ps s s1 v l x, exec (map ODir ps) s = (s1, v) -> s1 l = Some (File x) -> s l = Some (File x).
Proof.
  intros ps s s1 v l x E H. pose proof (exec_dirs_change ps s l) as C. rewrite E in C. cbn [fst] in C.
  destruct (s l) as [[|y]|] eqn:El.
  - exfalso. rewrite H in C. specialize (C ltac:(discriminate)). discriminate.
  - destruct (beq x y) eqn:Q; [apply beq_eq in Q; subst; reflexivity|]. exfalso.
    apply beq_neq in Q. rewrite H in C. specialize (C ltac:(congruence)). discriminate.
  - exfalso. rewrite H in C. specialize (C ltac:(discriminate)). discriminate.
Qed.

Lemma below_names : forall d x f, split_on slash f = d ++ [x] -> plain_comp x = true ->
  Forall name (names_of d ++ [x]).
Proof.
  intros d x f E P. pose proof (split_clean slash f) as F. rewrite E in F. apply Forall_app in F. destruct F as [Fd Fx].
  apply Forall_app. split; [apply names_of_names; exact Fd|].
  pose proof (names_of_names [x] Fx) as G. unfold names_of in G. cbn [filter] in G. rewrite P in G. exact G.
Qed.

(** Files appear only below the base directory. *)
Theorem files_inside : forall url data s s' v l x, rooted_fs s ->
  exec (write_ops cwd base url data) s = (s', v) -> s' l = Some (File x) ->
  s l = Some (File x) \/ (below B l /\ x = data).
Proof.
  intros url data s s' v l x R E H.
  destruct (write_cases url data s s' v R E) as [(_ & -> & _)|(f & d & c & s1 & v1 & -> & Ef & E1 & C)]; [auto|].
  destruct C as [(-> & _ & _)|[(_ & -> & _)|(_ & _ & _ & P & _ & _ & ->)]].
  - left. eapply dirs_no_new_file; eauto.
  - left. eapply dirs_no_new_file; eauto.
  - destruct (loc_dec l (B ++ names_of d ++ [c])) as [->|N].
    + rewrite fset_eq in H. injection H as <-. right. split; [|reflexivity].
      exists (names_of d ++ [c]). split; [destruct (names_of d); discriminate|].
      split; [eapply below_names; eauto|reflexivity].
    + rewrite fset_neq in H by exact N. left. eapply dirs_no_new_file; eauto.
Qed.

(** If the address is accepted, nothing at all changes outside, except that
    the base directory itself is made. *)
Theorem accepted_inside : forall url data s s' l, rooted_fs s ->
  exec (write_ops cwd base url data) s = (s', VOk) -> s' l <> s l ->
  below B l \/ (s l = None /\ s' l = Some Dir /\ exists r, B = l ++ r).
Proof.
  intros url data s s' l R E H.
  destruct (write_cases url data s s' VOk R E) as [(_ & _ & G)|(f & d & c & s1 & v1 & -> & Ef & E1 & C)]; [discriminate|].
  destruct C as [(_ & _ & G)|[(_ & _ & G)|(-> & _ & _ & P & Nd & W & ->)]]; [congruence|discriminate|].
  pose proof (below_names d c f Ef P) as F.
  destruct (loc_dec l (B ++ names_of d ++ [c])) as [->|N].
  - left. exists (names_of d ++ [c]). split; [destruct (names_of d); discriminate|]. split; [exact F|reflexivity].
  - rewrite fset_neq in H by exact N. rewrite fset_neq by exact N.
    pose proof (exec_dirs_change (prefixes (fold_left walk d B)) s l) as Ch. rewrite E1 in Ch. cbn [fst] in Ch. specialize (Ch H).
    destruct (in_dec loc_dec l (prefixes (fold_left walk d B))) as [I|I].
    + rewrite W in I. apply prefixes_in in I. destruct I as (Nl & r & Er).
      assert (K : (exists q, q <> [] /\ l = B ++ q /\ names_of d = q ++ r) \/ exists q, B = l ++ q).
      { clear - Er. revert l Er. induction B as [|b B' IH]; intros l Er; cbn [app] in Er.
        - destruct l as [|c l]; [right; exists []; reflexivity|]. left. exists (c :: l). split; [discriminate|auto].
        - destruct l as [|c l]; [right; exists (b :: B'); reflexivity|]. cbn [app] in Er. injection Er as <- Er.
          destruct (IH l Er) as [(q & Q1 & -> & Q3)|(q & ->)]; [left; exists q; auto|right; exists q; reflexivity]. }
      destruct K as [(q & Q1 & -> & Q3)|K].
      * left. exists q. split; [exact Q1|split; [|reflexivity]]. rewrite Q3 in F. apply Forall_app in F. destruct F as [F _].
        apply Forall_app in F. apply F.
      * right. split; [|split; [exact Ch|exact K]]. destruct (s l) as [[|y]|] eqn:El; [congruence| |reflexivity].
        exfalso. apply (exec_dirs_blocked (prefixes (fold_left walk d B)) s l y); [|exact El|rewrite E1; reflexivity].
        apply prefixes_in. split; [exact Nl|]. exists r. rewrite W. exact Er.
    + exfalso. apply H. pose proof (exec_dirs_other _ s l I) as O. rewrite E1 in O. exact O.
Qed.
End Write.
