(** Domains, reading back, withdrawals. *)
From Coq Require Import Lia String.
From Verif.Model Require Import Base Str Tal TalText Paths Validator Cache Rrdp.
From Verif.Spec Require Import PathSpec RrdpSpec.
From Verif.Proofs Require Import StrProofs RrdpProofs RrdpCrash RrdpThm PathProofs CacheProofs.

Definition domain_of (h : bytes) : bytes := rsync_scheme ++ h ++ [slash].

Lemma contains_refl_app : forall a b c, contains (a ++ b ++ c) b = true.
Proof. intros. apply contains_spec. exists a, c. reflexivity. Qed.

(** A second occurrence of the scheme starts after the first. *)
Lemma scheme_position : forall f a b, rsync_scheme ++ f = a ++ rsync_scheme ++ b ->
  a = [] \/ exists a', a = rsync_scheme ++ a' /\ f = a' ++ rsync_scheme ++ b.
Proof.
  intros f a b H. unfold rsync_scheme in *. cbn in H.
  destruct a as [|x0 a]; [left; reflexivity|]. right.
  do 7 (destruct a as [|? a]; [cbn in H; discriminate H|]).
  cbn [app] in H. injection H as <- <- <- <- <- <- <- <- H. exists a. split; [reflexivity|exact H].
Qed.

Lemma split_app_nosep : forall p w, ~ In slash w -> exists d y, split_on slash (p ++ w) = d ++ [y ++ w].
Proof.
  intros p w Hw. destruct (split_last p) as (d & y & E & C). exists d, y.
  destruct C as [[-> ->]|[N ->]].
  - cbn [app] in *. apply split_single. intros G. apply in_app_or in G. destruct G as [G|G]; [|contradiction].
    pose proof (split_clean slash y) as F. rewrite E in F. inversion F; subst. contradiction.
  - rewrite <- app_assoc. cbn [app]. rewrite split_app_sep.
    pose proof (split_clean slash (join [slash] d ++ slash :: y)) as F. rewrite E in F. apply Forall_app in F. destruct F as [Fd Fy].
    rewrite split_join by assumption. f_equal. apply split_single. intros G. apply in_app_or in G.
    destruct G as [G|G]; [inversion Fy; subst; contradiction|contradiction].
Qed.

Lemma app_last_inj : forall A (a b : list A) x y c, a ++ [x] = b ++ c ++ [y] -> x = y /\ a = b ++ c.
Proof. intros A a b x y c H. rewrite app_assoc in H. apply app_inj_tail in H. destruct H; auto. Qed.

Lemma prefixes_snoc : forall l c, prefixes (l ++ [c]) = prefixes l ++ [l ++ [c]].
Proof.
  intros l c. unfold prefixes. rewrite app_length. cbn [length]. rewrite seq_app, map_app. f_equal.
  - apply map_ext_in. intros n Hn. apply in_seq in Hn. rewrite firstn_app.
    replace (n - length l)%nat with 0%nat by lia. cbn [firstn]. apply app_nil_r.
  - cbn [Nat.add seq map]. f_equal. apply firstn_all2. rewrite app_length. cbn. lia.
Qed.

Section Write.
Variable cwd : loc.
Variable base : bytes.
Hypothesis Hbase : base <> [].
Let B := resolve cwd base.

(** Where a file delivered by the server bound to host [h] can end up *)
Theorem domain_partial : forall h url data s s' v l x, rooted_fs s -> name h ->
  exec (callback_ops cwd base (domain_of h) url data) s = (s', v) -> s' l = Some (File x) ->
  s l = Some (File x) \/
  below (B ++ [h]) l \/
  exists a y b, l = B ++ a ++ (y ++ str "rsync:") :: h :: b.
Proof.
  intros h url data s s' v l x R Hh E H. unfold callback_ops in E.
  destruct (contains url (domain_of h)) eqn:C; cbn [negb] in E; [|injection E as <- <-; auto].
  destruct (write_cases cwd base Hbase url data s s' v R E) as [(_ & -> & _)|(f & d & c & s1 & v1 & -> & Ef & E1 & K)]; [auto|].
  destruct K as [(-> & _ & _)|[(_ & -> & _)|(_ & _ & _ & P & Nd & W & ->)]]; try (left; eapply dirs_no_new_file; eauto; fail).
  fold B in W, H |- *.
  destruct (loc_dec l (B ++ names_of d ++ [c])) as [->|N].
  2: { rewrite fset_neq in H by exact N. left. eapply dirs_no_new_file; eauto. }
  right. apply contains_spec in C. destruct C as (a & b & Ea). unfold domain_of in Ea. rewrite <- !app_assoc in Ea.
  assert (Nh : split_on slash h = [h]) by (apply split_single; apply Hh).
  assert (Ph : plain_comp h = true) by (apply name_plain; exact Hh).
  destruct (scheme_position _ _ _ Ea) as [->|(a' & -> & Ea')].
  - left. cbn [app] in Ea. apply app_inv_head in Ea. cbn [app] in Ea. rewrite Ea, split_app_sep, Nh in Ef.
    destruct (split_last b) as (db & cb & Eb & _). rewrite Eb in Ef. cbn [app] in Ef.
    destruct d as [|d0 d]; cbn [app] in Ef; [injection Ef as _ Ef; destruct db; discriminate|].
    injection Ef as <- Ef. apply app_inj_tail in Ef. destruct Ef as [-> ->].
    exists (names_of d ++ [c]). split; [destruct (names_of d); discriminate|]. split.
    + pose proof (below_names d c b Eb P) as F. exact F.
    + unfold names_of. cbn [filter]. rewrite Ph. rewrite <- app_assoc. reflexivity.
  - right. cbn [app] in Ea'.
    assert (Ef' : f = (a' ++ str "rsync:") ++ slash :: ([] ++ slash :: (h ++ slash :: b))) by (rewrite Ea', <- app_assoc; reflexivity).
    rewrite Ef', !split_app_sep, Nh in Ef.
    destruct (split_app_nosep a' (str "rsync:")) as (p & y & Ep); [cbn; unfold slash; lia|].
    rewrite Ep in Ef. cbn [split_on app] in Ef. rewrite <- !app_assoc in Ef. cbn [app] in Ef.
    destruct (split_last b) as (db & cb & Eb & _). rewrite Eb in Ef.
    symmetry in Ef. apply app_last_inj with (c := (y ++ str "rsync:") :: [] :: h :: db) in Ef. destruct Ef as [<- ->].
    exists (names_of p), y, (names_of db ++ [c]). unfold names_of. rewrite filter_app. cbn [filter]. rewrite Ph.
    assert (Py : plain_comp (y ++ str "rsync:") = true).
    { unfold plain_comp. apply negb_true_iff. destruct y as [|y0 [|y1 [|y2 y]]]; cbn; rewrite ?andb_false_r; reflexivity. }
    rewrite Py. change (plain_comp []) with false. cbv iota. rewrite <- app_assoc. reflexivity.
Qed.

(** Hosts ["."] and [""] *)
Lemma walk_dot : forall l, walk l dot = l.
Proof. reflexivity. Qed.

Theorem domain_dot : forall v data d x, split_on slash v = d ++ [x] -> bad_path v = false ->
  callback_ops cwd base (domain_of dot) (rsync_scheme ++ dot ++ [slash] ++ v) data =
    map ODir (prefixes (fold_left walk d B)) ++ [OFile (walk (fold_left walk d B) x) data] /\
  callback_ops cwd base (domain_of dot) (rsync_scheme ++ dot ++ [slash] ++ v) data =
    write_ops cwd base (rsync_scheme ++ v) data.
Proof.
  intros v data d x Ev Bv.
  assert (G : callback_ops cwd base (domain_of dot) (rsync_scheme ++ dot ++ [slash] ++ v) data =
    map ODir (prefixes (fold_left walk d B)) ++ [OFile (walk (fold_left walk d B) x) data]).
  { unfold callback_ops.
    replace (contains (rsync_scheme ++ dot ++ [slash] ++ v) (domain_of dot)) with true.
    2: { symmetry. apply contains_spec. exists [], v. unfold domain_of. rewrite <- !app_assoc. reflexivity. }
    cbn [negb].
    assert (Es : split_on slash (dot ++ [slash] ++ v) = (dot :: d) ++ [x]).
    { change ([slash] ++ v) with (slash :: v). rewrite split_app_sep, Ev. reflexivity. }
    rewrite (write_ops_shape cwd base Hbase _ _ _ _ Es). fold B. cbn [fold_left]. rewrite walk_dot.
    change (bad_path (dot ++ [slash] ++ v)) with (bad_path v). rewrite Bv. reflexivity. }
  split; [exact G|]. rewrite G, (write_ops_shape cwd base Hbase v d x data Ev), Bv. reflexivity.
Qed.

Theorem domain_substring : forall h victim x data, name h -> name victim -> name x ->
  bad_path (victim ++ [slash] ++ domain_of h ++ x) = false ->
  callback_ops cwd base (domain_of h) (rsync_scheme ++ victim ++ [slash] ++ domain_of h ++ x) data =
    map ODir (prefixes (B ++ [victim; str "rsync:"; h])) ++ [OFile (B ++ [victim; str "rsync:"; h; x]) data].
Proof.
  intros h victim x data Hh Hv Hx Hb. unfold callback_ops.
  replace (contains (rsync_scheme ++ victim ++ [slash] ++ domain_of h ++ x) (domain_of h)) with true.
  2: { symmetry. apply contains_spec. exists (rsync_scheme ++ victim ++ [slash]), x. rewrite <- !app_assoc. reflexivity. }
  cbn [negb].
  assert (Es : split_on slash (victim ++ [slash] ++ domain_of h ++ x) = [victim; str "rsync:"; []; h] ++ [x]).
  { unfold domain_of. change ([slash] ++ (rsync_scheme ++ h ++ [slash]) ++ x) with (slash :: (rsync_scheme ++ h ++ [slash]) ++ x).
    rewrite split_app_sep, (split_single _ victim) by apply Hv.
    replace ((rsync_scheme ++ h ++ [slash]) ++ x) with (str "rsync:" ++ slash :: ([] ++ slash :: (h ++ slash :: x)))
      by (rewrite <- !app_assoc; reflexivity).
    rewrite !split_app_sep, (split_single _ h), (split_single _ x) by (apply Hh || apply Hx). reflexivity. }
  rewrite (write_ops_shape cwd base Hbase _ _ _ _ Es), Hb. fold B. cbn [fold_left].
  rewrite (walk_name B victim) by (apply name_plain; exact Hv).
  rewrite (walk_name _ (str "rsync:")) by reflexivity.
  change (walk ((B ++ [victim]) ++ [str "rsync:"]) []) with ((B ++ [victim]) ++ [str "rsync:"]).
  rewrite (walk_name _ h) by (apply name_plain; exact Hh).
  rewrite (walk_name _ x) by (apply name_plain; exact Hx).
  rewrite <- !app_assoc. reflexivity.
Qed.

(** Directories outside *)
Theorem directory_outside : forall h x data s s' v, name h -> name x -> rooted_fs s ->
  (forall p r y, removelast B ++ [x] = p ++ r -> s p <> Some (File y)) ->
  exec (callback_ops cwd base (domain_of h) (rsync_scheme ++ dotdot ++ [slash] ++ x ++ [slash] ++ domain_of h ++ str "f") data) s = (s', v) ->
  s' (removelast B ++ [x]) = Some Dir.
Proof.
  intros h x data s s' v Hh Hx R Hf E. unfold callback_ops in E.
  replace (contains (rsync_scheme ++ dotdot ++ [slash] ++ x ++ [slash] ++ domain_of h ++ str "f") (domain_of h)) with true in E.
  2: { symmetry. apply contains_spec. exists (rsync_scheme ++ dotdot ++ [slash] ++ x ++ [slash]), (str "f"). rewrite <- !app_assoc. reflexivity. }
  cbn [negb] in E.
  assert (Es : split_on slash (dotdot ++ [slash] ++ x ++ [slash] ++ domain_of h ++ str "f") = [dotdot; x; str "rsync:"; []; h] ++ [str "f"]).
  { unfold domain_of.
    replace (dotdot ++ [slash] ++ x ++ [slash] ++ (rsync_scheme ++ h ++ [slash]) ++ str "f")
      with (dotdot ++ slash :: (x ++ slash :: (str "rsync:" ++ slash :: ([] ++ slash :: (h ++ slash :: str "f")))))
      by (rewrite <- !app_assoc; reflexivity).
    rewrite !split_app_sep, (split_single _ x), (split_single _ h) by (apply Hh || apply Hx). reflexivity. }
  rewrite (write_ops_shape cwd base Hbase _ _ _ _ Es) in E. fold B in E. cbn [fold_left] in E.
  change (walk B dotdot) with (removelast B) in E.
  rewrite (walk_name (removelast B) x) in E by (apply name_plain; exact Hx).
  rewrite (walk_name _ (str "rsync:")) in E by reflexivity.
  change (walk ((removelast B ++ [x]) ++ [str "rsync:"]) []) with ((removelast B ++ [x]) ++ [str "rsync:"]) in E.
  rewrite (walk_name _ h) in E by (apply name_plain; exact Hh).
  set (p0 := removelast B ++ [x]) in *.
  assert (Sp : prefixes ((p0 ++ [str "rsync:"]) ++ [h]) =
               prefixes p0 ++ [p0 ++ [str "rsync:"]; (p0 ++ [str "rsync:"]) ++ [h]])
    by (rewrite !prefixes_snoc, <- app_assoc; reflexivity).
  rewrite Sp, map_app, <- app_assoc, exec_app in E.
  assert (Ok : snd (exec (map ODir (prefixes p0)) s) = VOk).
  { apply exec_dirs_ok. intros p y Hp. apply prefixes_in in Hp. destruct Hp as (_ & r & Er). exact (Hf p r y Er). }
  destruct (exec (map ODir (prefixes p0)) s) as [s1 v1] eqn:E1. cbn [snd] in Ok. subst v1.
  assert (D1 : s1 p0 = Some Dir).
  { apply (exec_dirs_made _ _ _ E1). apply prefixes_in. split; [unfold p0; destruct (removelast B); discriminate|exists []; symmetry; apply app_nil_r]. }
  assert (G : forall ops' s2, s2 p0 = Some Dir -> fst (exec ops' s2) p0 = Some Dir).
  { clear. induction ops' as [|o r IH]; intros s2 H; [exact H|]. unfold exec in *. cbn [exec_with].
    destruct (step_kind o s2 p0 Dir H) as (n & K1 & K2). destruct n; [|discriminate].
    destruct (step o s2) as [s3 [| |]]; cbn [fst] in *; auto. }
  match type of E with exec ?ops _ = _ => specialize (G ops s1 D1) end. rewrite E in G. exact G.
Qed.

(** Reading back *)
Lemma replace_none : forall old new s fuel, contains s old = false -> replace_fuel fuel old new s = s.
Proof.
  intros old new s fuel. revert s. induction fuel as [|k IH]; intros s H; cbn [replace_fuel]; [reflexivity|].
  destruct s as [|c r]; [reflexivity|]. cbn [contains] in H. apply orb_false_iff in H. destruct H as [H1 H2].
  rewrite H1, IH by exact H2. reflexivity.
Qed.

Lemma local_path : forall f, contains f rsync_scheme = false ->
  get_local_path (octo_map base) (rsync_scheme ++ f) = map_dir base ++ f.
Proof.
  intros f H. unfold get_local_path, octo_map. cbn [fold_left fst snd]. unfold replace_all.
  change (length (rsync_scheme ++ f)) with (S (length (skipn 1 (rsync_scheme ++ f)))). cbn [replace_fuel].
  change (rsync_scheme ++ f) with (114 :: (skipn 1 rsync_scheme ++ f)) at 1. cbv iota.
  rewrite has_prefix_app. change (skipn (length rsync_scheme) (rsync_scheme ++ f)) with f.
  rewrite replace_none by exact H. reflexivity.
Qed.

Theorem read_place : forall f, contains f rsync_scheme = false ->
  resolve cwd (get_local_path (octo_map base) (rsync_scheme ++ f)) = resolve cwd (path_join base f).
Proof.
  intros f H. rewrite local_path, resolve_join by assumption. fold B. unfold map_dir.
  destruct (has_suffix base [slash]) eqn:E.
  - apply has_suffix_spec in E. destruct E as (b & ->).
    unfold resolve, B. unfold resolve.
    assert (Rb : is_rooted ((b ++ [slash]) ++ f) = is_rooted (b ++ [slash])) by (destruct b; cbn [app]; rewrite !is_rooted_cons; reflexivity).
    rewrite Rb, <- app_assoc. cbn [app]. rewrite !split_app_sep, !fold_walk_app. reflexivity.
  - unfold resolve, B. unfold resolve.
    assert (Rb : is_rooted ((base ++ [slash]) ++ f) = is_rooted base) by (destruct base; [congruence|cbn [app]; rewrite !is_rooted_cons; reflexivity]).
    rewrite Rb, <- app_assoc. cbn [app]. rewrite !split_app_sep, !fold_walk_app. reflexivity.
Qed.

Theorem read_after_write : forall url data s s', rooted_fs s ->
  (forall f, url = rsync_scheme ++ f -> contains f rsync_scheme = false) ->
  exec (write_ops cwd base url data) s = (s', VOk) ->
  s' (resolve cwd (get_local_path (octo_map base) url)) = Some (File data).
Proof.
  intros url data s s' R Hc E.
  destruct (write_cases cwd base Hbase url data s s' VOk R E) as [(_ & _ & G)|(f & d & c & s1 & v1 & -> & Ef & E1 & C)]; [discriminate|].
  destruct C as [(_ & _ & G)|[(_ & _ & G)|(-> & _ & _ & P & Nd & W & ->)]]; [congruence|discriminate|].
  rewrite (read_place f (Hc f eq_refl)), resolve_join by exact Hbase. fold B. fold B in W.
  rewrite Ef, fold_walk_app, W. cbn [fold_left]. rewrite (walk_name _ c P), <- app_assoc. apply fset_eq.
Qed.
End Write.

(** ** Names with a step up *)
Definition up_step (u : bytes) : Prop := u = str "../" \/ u = str "..\".
Lemma bad_path_iff : forall p, bad_path p = true <-> exists a u b, p = a ++ u ++ b /\ up_step u.
Proof.
  intros p. unfold bad_path, up_step. rewrite Bool.orb_true_iff, !contains_spec. split.
  - intros [(a & b & E)|(a & b & E)]; exists a; eexists; exists b; split; [exact E|now left|exact E|now right].
  - intros (a & u & b & E & [-> | ->]); [left|right]; eauto.
Qed.

Theorem up_not_written : forall cwd base a u b data s s' v, base <> [] -> rooted_fs s -> up_step u ->
  exec (write_ops cwd base (rsync_scheme ++ a ++ u ++ b) data) s = (s', v) ->
  v <> VOk /\ forall l x, s' l = Some (File x) -> s l = Some (File x).
Proof.
  intros cwd base a u b data s s' v Hb R U E.
  assert (BP : bad_path (a ++ u ++ b) = true) by (apply bad_path_iff; eauto).
  destruct (write_cases cwd base Hb _ data s s' v R E) as [(_ & -> & ->)|(f & d & x & s1 & v1 & Ef & Es & E1 & C)].
  - split; [discriminate|auto].
  - apply app_inv_head in Ef. subst f.
    assert (K : forall l y, s1 l = Some (File y) -> s l = Some (File y)).
    { intros l y H. pose proof (exec_dirs_change (prefixes (fold_left walk d (resolve cwd base))) s l) as X. rewrite E1 in X.
      cbn [fst] in X. destruct (s l) as [[|z]|] eqn:Q.
      - pose proof (exec_dirs_keep (prefixes (fold_left walk d (resolve cwd base))) s l Q) as Y. rewrite E1 in Y. cbn [fst] in Y. congruence.
      - assert (s1 l <> Some (File z) -> False) by (intros Z; specialize (X Z); congruence).
        destruct (list_eq_dec Z.eq_dec y z) as [-> |D]; [reflexivity|]. exfalso. apply H0. congruence.
      - rewrite X in H; congruence. }
    destruct C as [(-> & -> & N)|[(-> & -> & ->)|(_ & _ & N & _)]]; [auto|split; [discriminate|auto]|congruence].
Qed.

Theorem up_not_listed : forall files a u b h, up_step u -> In (a ++ u ++ b, h) files -> extract_path_mft files = None.
Proof.
  intros files a u b h U. assert (BP : bad_path (a ++ u ++ b) = true) by (apply bad_path_iff; eauto).
  induction files as [|[n g] files IH]; intros H; [destruct H|]. cbn [extract_path_mft].
  destruct H as [H|H].
  - assert (n = a ++ u ++ b) by congruence. subst n. now rewrite BP.
  - destruct (bad_path n); [reflexivity|]. now rewrite IH.
Qed.
