(** Paths, cleaning and resolution. *)
From Coq Require Import Lia String.
From Verif.Model Require Import Base Str Tal TalText Paths Validator Cache.
From Verif.Spec Require Import PathSpec.
From Verif.Proofs Require Import StrProofs RrdpCrash.

Lemma split_nonempty : forall sep s, split_on sep s <> [].
Proof.
  intros sep [|c r]; cbn [split_on]; [discriminate|]. destruct (c =? sep); [discriminate|].
  destruct (split_on sep r); discriminate.
Qed.

Lemma split_app_sep : forall sep a b, split_on sep (a ++ sep :: b) = split_on sep a ++ split_on sep b.
Proof.
  intros sep a b. induction a as [|c r IH]; cbn [split_on app].
  - rewrite Z.eqb_refl. reflexivity.
  - destruct (c =? sep); [rewrite IH; reflexivity|]. rewrite IH.
    pose proof (split_nonempty sep r). destruct (split_on sep r); [congruence|reflexivity].
Qed.

Lemma split_clean : forall sep s, Forall (fun c => ~ In sep c) (split_on sep s).
Proof.
  intros sep s. induction s as [|c r IH]; cbn [split_on]; [constructor; auto|].
  destruct (Z.eqb_spec c sep) as [E|E]; [constructor; auto|].
  destruct (split_on sep r) as [|h t]; [constructor; [cbn; intuition congruence|constructor]|].
  inversion IH; subst. constructor; [|assumption]. intros [G|G]; [congruence|contradiction].
Qed.

Lemma join_split : forall sep s, join [sep] (split_on sep s) = s.
Proof.
  intros sep s. induction s as [|c r IH]; cbn [split_on]; [reflexivity|].
  pose proof (split_nonempty sep r). destruct (split_on sep r) as [|h t]; [congruence|].
  destruct (Z.eqb_spec c sep) as [E|E].
  - subst c. cbn [join] in *. cbn [app]. f_equal. exact IH.
  - destruct t as [|h2 t]; cbn [join] in *; [subst h; reflexivity|]. cbn [app] in *. f_equal. exact IH.
Qed.

Lemma split_single : forall sep a, ~ In sep a -> split_on sep a = [a].
Proof.
  intros sep a. induction a as [|c r IH]; intros H; cbn [split_on]; [reflexivity|].
  destruct (Z.eqb_spec c sep) as [E|E]; [exfalso; apply H; left; exact E|].
  rewrite IH; [reflexivity|]. intros G. apply H. right. exact G.
Qed.

Lemma split_join : forall sep l, l <> [] -> Forall (fun c => ~ In sep c) l -> split_on sep (join [sep] l) = l.
Proof.
  intros sep l. induction l as [|a l IH]; intros N F; [congruence|]. inversion F; subst.
  destruct l as [|b l]; [apply split_single; assumption|].
  change (join [sep] (a :: b :: l)) with (a ++ sep :: join [sep] (b :: l)).
  rewrite split_app_sep, split_single by assumption. rewrite IH; [reflexivity|discriminate|assumption].
Qed.

(** Cleaning does not change what a path names *)

Definition plain_comp (c : bytes) : bool := negb (beq c [] || beq c dot || beq c dotdot).

Lemma walk_name : forall l c, plain_comp c = true -> walk l c = l ++ [c].
Proof.
  intros l c H. unfold plain_comp in H. apply negb_true_iff, orb_false_iff in H. destruct H as [H1 H2].
  unfold walk. rewrite H1, H2. reflexivity.
Qed.

Definition up_comps (st : list bytes) : Prop := Forall (fun c => plain_comp c = true \/ c = dotdot) st.

(** Every [..] is below every name in the stack (the stack is reversed). *)
Fixpoint stack_ok (st : list bytes) : Prop :=
  match st with
  | [] => True
  | c :: r => (c = dotdot /\ Forall (fun x => x = dotdot) r) \/ (plain_comp c = true /\ stack_ok r)
  end.

Lemma dotdot_not_plain : plain_comp dotdot = false.
Proof. reflexivity. Qed.

Lemma fold_walk_app : forall a b l, fold_left walk (a ++ b) l = fold_left walk b (fold_left walk a l).
Proof. intros. apply fold_left_app. Qed.

Lemma clean_comps_walk : forall rooted cs st l, stack_ok st ->
  (rooted = true -> l = []) -> (rooted = true -> Forall (fun c => plain_comp c = true) st) ->
  fold_left walk (clean_comps rooted cs st) l = fold_left walk cs (fold_left walk (rev st) l).
Proof.
  intros rooted cs. induction cs as [|c cs IH]; intros st l Hs Hl Hr; cbn [clean_comps fold_left]; [reflexivity|].
  destruct (beq c [] || beq c dot) eqn:E1.
  - rewrite IH by assumption. f_equal. unfold walk at 2. rewrite E1. reflexivity.
  - destruct (beq c dotdot) eqn:E2.
    + apply beq_eq in E2. subst c. destruct st as [|t st].
      * rewrite IH.
        { destruct rooted; cbn [rev app fold_left]; [rewrite (Hl eq_refl); reflexivity|reflexivity]. }
        { destruct rooted; cbn [stack_ok]; auto. }
        { exact Hl. }
        { destruct rooted; [constructor|discriminate]. }
      * destruct (beq t dotdot) eqn:E3.
        { apply beq_eq in E3. subst t. cbn [stack_ok] in Hs. destruct Hs as [[_ Hs]|[Hs _]]; [|discriminate].
          rewrite IH.
          - cbn [rev]. rewrite !fold_walk_app. reflexivity.
          - cbn [stack_ok]. left. split; [reflexivity|constructor; [reflexivity|exact Hs]].
          - exact Hl.
          - intros R. specialize (Hr R). inversion Hr; subst. rewrite dotdot_not_plain in H1. discriminate. }
        { cbn [stack_ok] in Hs. destruct Hs as [[Hs _]|[Hp Hs]]; [subst t; discriminate|].
          rewrite IH; [|exact Hs|exact Hl|intros R; specialize (Hr R); inversion Hr; assumption].
          f_equal. cbn [rev]. rewrite fold_walk_app. cbn [fold_left].
          rewrite (walk_name _ t Hp). unfold walk at 2.
          change (beq dotdot [] || beq dotdot dot) with false. change (beq dotdot dotdot) with true. cbv iota.
          rewrite removelast_last. reflexivity. }
    + assert (P : plain_comp c = true) by (unfold plain_comp; rewrite E1, E2; reflexivity).
      rewrite IH.
      * cbn [rev]. rewrite fold_walk_app. reflexivity.
      * cbn [stack_ok]. right. auto.
      * exact Hl.
      * intros R. constructor; auto.
Qed.

Lemma clean_comps_in : forall rooted cs st c, In c (clean_comps rooted cs st) -> In c st \/ In c cs.
Proof.
  intros rooted cs. induction cs as [|x cs IH]; intros st c H; cbn [clean_comps] in H.
  - left. apply in_rev. exact H.
  - destruct (beq x [] || beq x dot); [destruct (IH _ _ H); [left; assumption|right; right; assumption]|].
    destruct (beq x dotdot) eqn:E.
    + apply beq_eq in E. subst x. destruct st as [|t st].
      * destruct (IH _ _ H) as [G|G]; [|right; right; exact G]. destruct rooted; [destruct G|].
        destruct G as [<-|[]]. right. left. reflexivity.
      * destruct (beq t dotdot).
        { destruct (IH _ _ H) as [[<-|G]|G]; [right; left; reflexivity|left; exact G|right; right; exact G]. }
        { destruct (IH _ _ H) as [G|G]; [left; right; exact G|right; right; exact G]. }
    + destruct (IH _ _ H) as [[<-|G]|G]; [right; left; reflexivity|left; exact G|right; right; exact G].
Qed.

Lemma clean_comps_keep : forall rooted cs st c, In c (clean_comps rooted cs st) ->
  (forall x, In x st -> x <> [] /\ x <> dot) -> c <> [] /\ c <> dot.
Proof.
  intros rooted cs. induction cs as [|x cs IH]; intros st c H Hs; cbn [clean_comps] in H.
  - apply Hs, in_rev. exact H.
  - destruct (beq x [] || beq x dot) eqn:E1; [exact (IH _ _ H Hs)|].
    apply orb_false_iff in E1. destruct E1 as [N1 N2]. apply beq_neq in N1, N2.
    assert (D : dotdot <> [] /\ dotdot <> dot) by (split; discriminate).
    destruct (beq x dotdot) eqn:E2.
    + destruct st as [|t st].
      * refine (IH _ _ H _). destruct rooted; intros y Hy; [destruct Hy|destruct Hy as [<-|[]]; exact D].
      * destruct (beq t dotdot).
        { refine (IH _ _ H _). intros y [<-|Hy]; [exact D|apply Hs; exact Hy]. }
        { refine (IH _ _ H _). intros y Hy. apply Hs. right. exact Hy. }
    + refine (IH _ _ H _). intros y [<-|Hy]; [auto|apply Hs; exact Hy].
Qed.

Lemma is_rooted_cons : forall c r, is_rooted (c :: r) = (c =? slash).
Proof. intros. unfold is_rooted. cbn [has_prefix]. destruct r; apply andb_true_r. Qed.

Lemma join_cons_head : forall (a : bytes) (l : list bytes), exists t, join [slash] (a :: l) = a ++ t.
Proof. intros a [|b l]; [exists []; cbn [join]; symmetry; apply app_nil_r|]. exists ([slash] ++ join [slash] (b :: l)). reflexivity. Qed.

Lemma join_head : forall (c : bytes) (l : list bytes), c <> [] -> ~ In slash c -> exists y r, join [slash] (c :: l) = y :: r /\ y <> slash.
Proof.
  intros c l N H. destruct (join_cons_head c l) as (t & Ht). destruct c as [|x c]; [congruence|].
  exists x, (c ++ t). split; [exact Ht|]. intros G. apply H. left. exact G.
Qed.

Lemma resolve_clean : forall cwd p, resolve cwd (clean p) = resolve cwd p.
Proof.
  intros cwd p. unfold clean, resolve at 2.
  set (cs := clean_comps (is_rooted p) (split_on slash p) []).
  assert (W : forall l, (is_rooted p = true -> l = []) -> fold_left walk cs l = fold_left walk (split_on slash p) l).
  { intros l Hl. unfold cs. rewrite clean_comps_walk; [reflexivity|exact I|exact Hl|constructor]. }
  assert (NS : Forall (fun c => ~ In slash c) cs).
  { apply Forall_forall. intros c Hc. unfold cs in Hc. apply clean_comps_in in Hc. destruct Hc as [[]|Hc].
    pose proof (split_clean slash p) as F. rewrite Forall_forall in F. apply F. exact Hc. }
  assert (NE : forall c, In c cs -> c <> []).
  { intros c Hc. apply (clean_comps_keep _ _ _ _ Hc). intros x []. }
  clearbody cs. destruct (is_rooted p) eqn:R.
  - unfold resolve. rewrite is_rooted_cons. rewrite Z.eqb_refl.
    change (slash :: join [slash] cs) with ([] ++ slash :: join [slash] cs). rewrite split_app_sep.
    cbn [split_on app fold_left]. change (walk [] []) with (@nil bytes).
    destruct cs as [|c cs']; [cbn [join split_on fold_left]; change (walk [] []) with (@nil bytes); rewrite <- W by auto; reflexivity|].
    rewrite split_join by (try exact NS; discriminate). apply W. auto.
  - destruct cs as [|c cs'].
    + cbn [join]. rewrite <- W by discriminate. reflexivity.
    + destruct (join_head c cs') as (y & r & Ej & Hy); [apply NE; left; reflexivity|inversion NS; assumption|].
      unfold resolve. rewrite Ej. rewrite is_rooted_cons.
      destruct (Z.eqb_spec y slash); [contradiction|]. rewrite <- Ej, split_join by (try exact NS; congruence).
      apply W. discriminate.
Qed.

(** The place of a path below the base directory *)
Lemma resolve_join : forall cwd base p, base <> [] ->
  resolve cwd (path_join base p) = fold_left walk (split_on slash p) (resolve cwd base).
Proof.
  intros cwd [|b base] p N; [congruence|]. unfold path_join. rewrite resolve_clean. unfold resolve.
  cbn [app]. rewrite !is_rooted_cons. change (b :: base ++ slash :: p) with ((b :: base) ++ slash :: p).
  rewrite split_app_sep, fold_walk_app. reflexivity.
Qed.

(** Components without [..] only go down. *)
Definition names_of (cs : list bytes) : list bytes := filter plain_comp cs.

Lemma walk_down : forall cs l, ~ In dotdot cs -> fold_left walk cs l = l ++ names_of cs.
Proof.
  induction cs as [|c cs IH]; intros l H; cbn [fold_left names_of filter]; [symmetry; apply app_nil_r|].
  rewrite IH by (intros G; apply H; right; exact G).
  assert (Nc : beq c dotdot = false) by (apply beq_neq; intros G; apply H; left; exact G).
  destruct (plain_comp c) eqn:P.
  - rewrite walk_name by exact P. rewrite <- app_assoc. reflexivity.
  - unfold plain_comp in P. rewrite Nc, orb_false_r in P. apply negb_false_iff in P.
    unfold walk at 1. rewrite P. reflexivity.
Qed.

Lemma names_of_names : forall cs, Forall (fun c => ~ In slash c) cs -> Forall name (names_of cs).
Proof.
  intros cs F. apply Forall_forall. intros c Hc. unfold names_of in Hc. apply filter_In in Hc. destruct Hc as [Hc P].
  rewrite Forall_forall in F. unfold plain_comp in P. apply negb_true_iff in P.
  apply orb_false_iff in P. destruct P as [P P3]. apply orb_false_iff in P. destruct P as [P1 P2].
  apply beq_neq in P1, P2, P3. split; [exact P1|split; [exact P2|split; [exact P3|apply F; exact Hc]]].
Qed.

Lemma name_plain : forall c, name c -> plain_comp c = true.
Proof.
  intros c (H1 & H2 & H3 & _). unfold plain_comp. apply beq_neq in H1, H2, H3. rewrite H1, H2, H3. reflexivity.
Qed.

Lemma names_of_id : forall cs, Forall name cs -> names_of cs = cs.
Proof.
  induction 1 as [|c cs H F IH]; [reflexivity|]. unfold names_of in *. cbn [filter]. rewrite (name_plain c H), IH. reflexivity.
Qed.

(** The check for parent directories *)
Lemma bad_path_up : forall a b, In dotdot (split_on slash a) -> bad_path (a ++ slash :: b) = true.
Proof.
  intros a b H. unfold bad_path. apply orb_true_iff. left. apply contains_spec.
  apply in_split in H. destruct H as (x & y & E).
  assert (J : join [slash] (split_on slash (a ++ slash :: b)) = a ++ slash :: b) by apply join_split.
  rewrite split_app_sep, E in J. rewrite <- J. clear.
  assert (G : forall w z : list bytes, z <> [] -> exists u v, join [slash] (w ++ dotdot :: z) = u ++ str "../" ++ v).
  { induction w as [|c w IH]; intros z Hz.
    - destruct z as [|c z]; [exfalso; apply Hz; reflexivity|]. exists [], (join [slash] (c :: z)). reflexivity.
    - destruct (IH z Hz) as (u & v & E). cbn [app].
      assert (N : exists h t, w ++ dotdot :: z = h :: t) by (destruct w; eexists; eexists; reflexivity).
      destruct N as (h & t & N). rewrite N in *. exists (c ++ [slash] ++ u), v.
      change (join [slash] (c :: h :: t)) with (c ++ [slash] ++ join [slash] (h :: t)). rewrite E.
      rewrite <- !app_assoc. reflexivity. }
  rewrite <- app_assoc. apply (G x). pose proof (split_nonempty slash b).
  destruct y; [cbn [app]; assumption|discriminate].
Qed.

Lemma split_last : forall s, exists d f, split_on slash s = d ++ [f] /\
  ((d = [] /\ s = f) \/ (d <> [] /\ s = join [slash] d ++ slash :: f)).
Proof.
  intros s. destruct (exists_last (split_nonempty slash s)) as (d & f & E). exists d, f. split; [exact E|].
  assert (J := join_split slash s). rewrite E in J. destruct d as [|c d]; [left; split; [reflexivity|symmetry; exact J]|].
  right. split; [discriminate|]. rewrite <- J. clear. revert c. induction d as [|c2 d IH]; intros c; [reflexivity|].
  cbn [app]. change (join [slash] (c :: c2 :: (d ++ [f]))) with (c ++ slash :: join [slash] ((c2 :: d) ++ [f])).
  rewrite IH. change (join [slash] (c :: c2 :: d)) with (c ++ slash :: join [slash] (c2 :: d)).
  rewrite <- app_assoc. reflexivity.
Qed.

Lemma good_dirs : forall s d f, split_on slash s = d ++ [f] -> bad_path s = false -> ~ In dotdot d.
Proof.
  intros s d f E B H. destruct (split_last s) as (d' & f' & E' & C). rewrite E in E'.
  apply app_inj_tail in E'. destruct E' as [<- <-]. destruct C as [[-> _]|[N ->]]; [destruct H|].
  rewrite bad_path_up in B; [discriminate|].
  rewrite split_join; [exact H|exact N|].
  pose proof (split_clean slash (join [slash] d ++ slash :: f)) as F. rewrite E in F. apply Forall_app in F. apply F.
Qed.

Lemma trim_scheme : forall f, trim_prefix (rsync_scheme ++ f) rsync_scheme = f.
Proof. intros. unfold trim_prefix. rewrite has_prefix_app. change (length rsync_scheme) with 8%nat. reflexivity. Qed.

Lemma rsync_url_cases : forall u, (exists f, u = rsync_scheme ++ f) \/ is_rsync_url u = false.
Proof.
  intros u. unfold is_rsync_url. destruct (has_prefix u rsync_scheme) eqn:E; [left|right; reflexivity].
  apply has_prefix_spec in E. exact E.
Qed.
