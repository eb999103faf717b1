(** Fetches that come to a good end. *)
From Coq Require Import Lia String PeanoNat.
From Verif.Model Require Import Base Str Tal Paths Validator Cache Rrdp CacheConc.
From Verif.Spec Require Import CacheConcSpec.
From Verif.Proofs Require Import StrProofs PathProofs CacheProofs RrdpCrash RrdpWitness CacheThm CacheConcProofs CacheConcThm CacheConcWitness CacheConcEnds.

Section Good.
Variables files dirs : loc -> Prop.
Hypothesis apart : forall l, files l -> dirs l -> False.
Definition fits (x : fop) : Prop :=
  match snd x with ODir l => dirs l | OFile l _ => files l | OErr | OFatal => False end.
Definition tidy (s : fs) : Prop := forall l, (dirs l -> forall x, s l <> Some (File x)) /\ (files l -> s l <> Some Dir).
Definition well (p : proc) : Prop :=
  match p with
  | Running c todo => Forall fits todo /\ match c with Some (l, _, _) => files l | None => True end
  | Stopped v => v = VOk
  end.
Lemma tidy_dir : forall s l, tidy s -> dirs l -> tidy (fset s l Dir).
Proof.
  intros s l T D l'. destruct (loc_dec l' l) as [-> |N].
  - rewrite fset_eq. split; [discriminate|]. intros F. destruct (apart _ F D).
  - rewrite fset_neq by exact N. apply T.
Qed.
Lemma tidy_file : forall s l x, tidy s -> files l -> tidy (fset s l (File x)).
Proof.
  intros s l x T F l'. destruct (loc_dec l' l) as [-> |N].
  - rewrite fset_eq. split; [|discriminate]. intros D. destruct (apart _ F D).
  - rewrite fset_neq by exact N. apply T.
Qed.
Lemma well_step : forall n p s, well p -> tidy s -> well (fst (proc_step n p s)) /\ tidy (snd (proc_step n p s)).
Proof.
  intros n [[((l & d) & k)|] todo|v] s W T; cbn [proc_step]; [..|auto].
  - destruct W as (W & F). destruct (skipn k d) as [|y rest]; cbn [fst snd well]; [auto|]. split; [auto|].
    destruct (s l) as [[|x]|]; [exact T|now apply tidy_file|exact T].
  - destruct W as (W & _). destruct todo as [|(g & o) r]; [cbn; auto|]. inversion W as [|x y X R]; subst. unfold fits in X. cbn [snd] in X.
    destruct o as [l|l d| |]; [| |destruct X|destruct X].
    + cbn [step]. destruct (s l) as [[|x]|] eqn:E; cbn [fst snd well].
      * split; [auto|now apply tidy_dir].
      * destruct (proj1 (T l) X x E).
      * split; [auto|now apply tidy_dir].
    + destruct (s l) as [[|x]|] eqn:E; cbn [fst snd well].
      * destruct (proj2 (T l) X E).
      * split; [auto|now apply tidy_file].
      * split; [auto|now apply tidy_file].
Qed.

Theorem good_end : forall jobs, Forall (Forall fits) jobs -> exists N, forall sched s, tidy s ->
  (forall i, (i < List.length jobs)%nat -> (N <= count_occ Nat.eq_dec (map fst sched) i)%nat) ->
  all_done (fst (conc_run jobs sched s)).
Proof.
  intros jobs G. destruct (ends jobs) as (N & H). exists N. intros sched s T C. specialize (H sched s C).
  assert (W : Forall well (fst (conc_run jobs sched s)) /\ tidy (snd (conc_run jobs sched s))).
  { refine (conc_inv (fun ps t => Forall well ps /\ tidy t) _ sched _ s _).
    - intros ps t i n p (W & U) E. assert (P : well p) by (rewrite Forall_forall in W; apply W; eapply nth_error_In, E).
      destruct (well_step n p t P U) as (A & B). split; [|exact B]. rewrite Forall_forall in *. intros q Q.
      destruct (In_set_nth _ _ _ _ Q) as [-> |Q']; auto.
    - split; [|exact T]. rewrite Forall_forall in *. intros p P. apply in_map_iff in P as (j & <- & J). split; [|exact I]. now apply G. }
  destruct W as (W & _). rewrite Forall_forall in W. unfold all_done. rewrite Forall_forall. destruct H as [H|H].
  - specialize (W _ H). discriminate W.
  - rewrite Forall_forall in H. intros p P. destruct (H p P) as (v & ->). specialize (W _ P). cbn in W. now subst v.
Qed.
End Good.

Lemma prefixes_split : forall l p, In p (prefixes l) -> p <> [] /\ exists q, l = p ++ q.
Proof.
  intros l p H. unfold prefixes in H. apply in_map_iff in H as (n & <- & H). apply in_seq in H. split.
  - destruct n; [lia|]. destruct l; [cbn in H; lia|discriminate].
  - exists (skipn n l). symmetry. apply firstn_skipn.
Qed.

Theorem success : forall cwd base fetches (files dirs : loc -> Prop),
  (forall l, files l -> dirs l -> False) ->
  (forall dom es e, In (dom, es) fetches -> In e es -> contains (e_path e) dom = true ->
     exists f dir, e_path e = rsync_scheme ++ f /\ extract_folders (e_path e) = Some dir /\ bad_path f = false /\
       files (resolve cwd (path_join base f)) /\
       forall p q, p <> [] -> resolve cwd (path_join base dir) = p ++ q -> dirs p) ->
  exists N, forall sched s,
  (forall l, (dirs l -> forall x, s l <> Some (File x)) /\ (files l -> s l <> Some Dir)) ->
  (forall i, (i < List.length fetches)%nat -> (N <= count_occ Nat.eq_dec (map fst sched) i)%nat) ->
  all_done (fst (conc_run (jobs_of cwd base fetches) sched s)).
Proof.
  intros cwd base fetches files dirs A E. destruct (good_end files dirs A (jobs_of cwd base fetches)) as (N & H).
  - rewrite Forall_forall. intros j J. apply in_map_iff in J as ((dom & es) & <- & F). rewrite Forall_forall. intros (g & o) O.
    apply in_flat_map in O as (e & I & O). apply in_map_iff in O as (o' & O & O'). injection O as _ ->.
    unfold callback_ops in O'. cbn [fst snd] in *. destruct (contains (e_path e) dom) eqn:C; cbn [negb] in O'; [|destruct O'].
    destruct (E dom es e F I C) as (f & dir & P & X & B & L & D). unfold write_ops in O'. rewrite X in O'.
    rewrite P in O'. unfold extract_file, is_rsync_url in O'. rewrite has_prefix_app, trim_scheme, B in O'.
    apply in_app_or in O' as [O'|[<- |[]]]; [|exact L]. apply in_map_iff in O' as (p & <- & Q).
    destruct (prefixes_split _ _ Q) as (Z & q & S). exact (D p q Z S).
  - exists N. intros sched s T C. apply H; [exact T|]. unfold jobs_of. rewrite map_length. exact C.
Qed.

Lemma success_case :
  let files (l : loc) := l = c_place in
  let dirs (l : loc) := (List.length l <= 3)%nat in
  (forall l, files l -> dirs l -> False) /\
  (exists f dir, c_url = rsync_scheme ++ f /\ extract_folders c_url = Some dir /\ bad_path f = false /\
     files (resolve [] (path_join cache_base f)) /\
     forall p q, p <> [] -> resolve [] (path_join cache_base dir) = p ++ q -> dirs p) /\
  (forall l, (dirs l -> forall x, cache0 l <> Some (File x)) /\ (files l -> cache0 l <> Some Dir)) /\
  fst (conc_run (jobs_of [] cache_base (c_fetches (str "abc") (str "X"))) c_both cache0) = [Stopped VOk; Stopped VOk] /\
  fst (conc_run (jobs_of [] cache_base (c_fetches (str "abc") (str "X"))) c_both (fset cache0 (map str ["c"; "h"]%string) (File []))) <> [Stopped VOk; Stopped VOk].
Proof.
  cbv zeta. split; [intros l -> H; cbn in H; lia|]. split.
  { exists (str "h/m/a.cer"), (str "h/m"). repeat split; try (vm_compute; reflexivity).
    intros p q _ H. apply (f_equal (@List.length _)) in H. rewrite app_length in H.
    replace (List.length (resolve [] (path_join cache_base (str "h/m")))) with 3%nat in H by (vm_compute; reflexivity). lia. }
  split; [|split; [vm_compute; reflexivity|vm_compute; discriminate]].
  intros l. split.
  - intros _ x H. unfold cache0 in H. destruct (leq l []); discriminate H.
  - intros ->. vm_compute. discriminate.
Qed.
