(** The report of a run of rsync. *)
From Coq Require Import Lia Bool String.
From Verif.Model Require Import Base Str TalText Tal Paths Cache RsyncList.
From Verif.Spec Require Import PathSpec RsyncSpec.
From Verif.Proofs Require Import StrProofs PathProofs CacheProofs CacheThm.

Lemma wanted_spec : forall l, wanted l = true <-> object_name l.
Proof.
  intros l. unfold wanted, object_name, wanted_extensions. rewrite existsb_exists. split.
  - intros (e & I & H). apply has_suffix_spec in H as (a & ->). exists a, e. auto.
  - intros (n & e & -> & I). exists e. split; [exact I|]. apply has_suffix_spec. now exists n.
Qed.

Lemma filter_match_kept : forall l, ~ of_deletion l -> filter_match l = (l, false).
Proof.
  intros l N. unfold filter_match. destruct (has_prefix l (str "deleting ")) eqn:E; [|reflexivity].
  apply has_prefix_spec in E. contradiction.
Qed.
Lemma filter_match_deleted : forall r, filter_match (str "deleting " ++ r) = (r, true).
Proof. intros r. unfold filter_match. rewrite has_prefix_app. reflexivity. Qed.

Lemma drop_cr_id : forall l, ~ (exists r, l = r ++ [13]) -> drop_cr l = l.
Proof.
  intros l N. unfold drop_cr, trim_suffix. destruct (has_suffix l [13]) eqn:E; [|reflexivity].
  apply has_suffix_spec in E. contradiction.
Qed.
Lemma scan_printed : forall lines, Forall line_ok lines -> scan_lines (printed lines) = lines.
Proof.
  unfold scan_lines. induction lines as [|l lines IH]; intros F; [reflexivity|].
  destruct (Forall_inv F) as (N & L & C). specialize (IH (Forall_inv_tail F)).
  unfold printed in *. cbn [map List.concat]. rewrite <- app_assoc. cbn [app]. rewrite split_app_sep, split_single by exact N.
  cbn [app scan]. destruct (split_on 10 (List.concat (map (fun l => l ++ [10]) lines))) as [|a r] eqn:E; [now apply split_nonempty in E|].
  destruct (Z.ltb_spec (Z.of_nat (List.length l)) 65536); [|lia]. rewrite drop_cr_id by exact C. now rewrite IH.
Qed.

Lemma last_app_one : forall (l : bytes) x, last (l ++ [x]) 0 = x.
Proof. intros. apply last_last. Qed.
Lemma join_last : forall l x, l <> [] -> join [slash] (l ++ [x]) = join [slash] l ++ [slash] ++ x.
Proof.
  induction l as [|a l IH]; intros x N; [congruence|]. destruct l as [|b l]; [reflexivity|].
  change ((a :: b :: l) ++ [x]) with (a :: (b :: l) ++ [x]).
  assert (E : forall t, t <> [] -> join [slash] (a :: t) = a ++ [slash] ++ join [slash] t) by (destruct t; [congruence|reflexivity]).
  rewrite E by (destruct l; discriminate). rewrite IH by discriminate. rewrite (E (b :: l)) by discriminate. now rewrite <- !app_assoc.
Qed.
Lemma address_tail : forall names, skipn 8 (address names) = join [slash] names.
Proof. reflexivity. Qed.
Lemma address_long : forall names, (8 <= List.length (address names))%nat.
Proof. intros. unfold address. rewrite app_length. cbn [str List.length]. cbn. lia. Qed.
Lemma last_of_app : forall (a b : bytes), b <> [] -> last (a ++ b) 0 = last b 0.
Proof.
  intros a b N. destruct (exists_last N) as (b' & x & ->). rewrite app_assoc, !last_last. reflexivity.
Qed.
Lemma no_slash_last : forall (c : bytes), c <> [] -> ~ In slash c -> last c 0 <> slash.
Proof.
  intros c N H E. destruct (exists_last N) as (b & x & ->). rewrite last_last in E. subst x. apply H, in_or_app. right. now left.
Qed.
Lemma last_address : forall l x, x <> [] -> last (address (l ++ [x])) 0 = last x 0.
Proof.
  intros l x N. unfold address. destruct l as [|a l].
  - cbn [app join]. now apply last_of_app.
  - rewrite join_last by discriminate. rewrite !app_assoc. now apply last_of_app.
Qed.

Lemma relative_prefix : forall uri p, relative_to uri p -> report_prefix uri = Ret p.
Proof.
  intros uri p H. unfold report_prefix. destruct H as [names|names N L F X|names x L F X].
  - pose proof (address_long names). rewrite app_length. cbn [List.length].
    destruct (Nat.ltb_spec (List.length (address names) + 1) 8); [lia|]. cbv zeta. rewrite last_last, Z.eqb_refl. cbn [negb andb].
    f_equal. unfold trim_suffix. rewrite (proj2 (has_suffix_spec _ _)) by now exists (address names).
    rewrite app_length. cbn [List.length]. rewrite Nat.add_sub, firstn_app, Nat.sub_diag, firstn_all, app_nil_r. reflexivity.
  - pose proof (address_long names). destruct (Nat.ltb_spec (List.length (address names)) 8); [lia|]. cbv zeta.
    rewrite address_tail, split_join by assumption. match goal with |- context [(2 <? ?n)%nat] => replace (2 <? n)%nat with false by (symmetry; apply Nat.ltb_ge; exact L) end. rewrite andb_false_r.
    f_equal. unfold trim_suffix. destruct (has_suffix (address names) [slash]) eqn:E; [|reflexivity]. exfalso.
    apply has_suffix_spec in E as (a & E). destruct (exists_last N) as (l & x & ->). rewrite last_last in X.
    pose proof (last_address l x X) as LA. rewrite E, last_last in LA. apply Forall_app in F as [_ F]. apply Forall_inv in F.
    now apply (no_slash_last x).
  - pose proof (address_long (names ++ [x])). destruct (Nat.ltb_spec (List.length (address (names ++ [x]))) 8); [lia|]. cbv zeta.
    rewrite address_tail, split_join by (try assumption; now destruct names). rewrite app_length. cbn [List.length].
    match goal with |- context [(2 <? ?n)%nat] => replace (2 <? n)%nat with true by (symmetry; apply Nat.ltb_lt; clear - L; lia) end.
    rewrite last_address by exact X.
    apply Forall_app in F as [_ F]. apply Forall_inv in F. destruct (Z.eqb_spec (last x 0) slash) as [E|_]; [now apply no_slash_last in E|].
    cbn [negb andb]. rewrite removelast_last. reflexivity.
Qed.

(** The report: objects among the lines, in order *)
Theorem reported : forall uri p lines, relative_to uri p -> Forall line_ok lines ->
  exists files, run_rsync uri (printed lines) = Ret files /\
    Forall2 (fun line f => (of_deletion line -> exists r, line = str "deleting " ++ r /\ f = (p ++ [slash] ++ r, true)) /\
                           (~ of_deletion line -> f = (p ++ [slash] ++ line, false)))
      (filter wanted lines) files /\
    (forall line, In line (filter wanted lines) <-> In line lines /\ object_name line).
Proof.
  intros uri p lines R F. unfold run_rsync. rewrite (relative_prefix _ _ R), (scan_printed _ F). cbn [gbind].
  eexists. split; [reflexivity|]. split.
  - induction (filter wanted lines) as [|l ls IH]; cbn [map]; constructor; [|exact IH]. split.
    + intros (r & ->). exists r. split; [reflexivity|]. rewrite filter_match_deleted. reflexivity.
    + intros N. rewrite filter_match_kept by exact N. reflexivity.
  - intros line. rewrite filter_In, wanted_spec. tauto.
Qed.

(** What is read for the reported address is where rsync puts the file. *)
Theorem located : forall cwd base names dest line, base <> [] -> names <> [] ->
  contains (join [slash] names ++ [slash] ++ line) rsync_scheme = false ->
  dest = resolve cwd (path_join base (join [slash] names)) ->
  resolve cwd (get_local_path (octo_map base) (address names ++ [slash] ++ line)) = put_at dest line.
Proof.
  intros cwd base names dest line B N C ->. unfold address. rewrite <- app_assoc.
  change (str "rsync://") with rsync_scheme. rewrite read_place by assumption.
  rewrite !resolve_join by exact B. unfold put_at. cbn [app]. rewrite split_app_sep, fold_walk_app. reflexivity.
Qed.

(** A directory named without a slash at its end is put below itself. *)
Theorem directory_twice : forall cwd base h m d x, base <> [] -> Forall name [h; m; d; x] ->
  relative_to (address [h; m; d]) (address [h; m]) /\
  put_at (resolve cwd (path_join base (join [slash] [h; m; d]))) (join [slash] [d; x]) = resolve cwd base ++ [h; m; d; d; x] /\
  (contains (join [slash] [h; m; d; x]) rsync_scheme = false ->
   resolve cwd (get_local_path (octo_map base) (address [h; m] ++ [slash] ++ join [slash] [d; x])) = resolve cwd base ++ [h; m; d; x]).
Proof.
  intros cwd base h m d x B F.
  assert (NS : Forall (fun c => ~ In slash c) [h; m; d; x]) by (eapply Forall_impl; [|exact F]; intros c (_ & _ & _ & N); exact N).
  assert (ND : ~ In dotdot [h; m; d; x]).
  { intros I. rewrite Forall_forall in F. destruct (F _ I) as (_ & _ & N & _). now apply N. }
  assert (WD : forall l, incl l [h; m; d; x] -> l <> [] -> forall p, fold_left walk (split_on slash (join [slash] l)) p = p ++ l).
  { intros l I N p. rewrite split_join; [|exact N|apply Forall_forall; intros c C; exact (proj1 (Forall_forall _ _) NS c (I c C))].
    rewrite walk_down by (intros C; exact (ND (I _ C))). f_equal. apply names_of_id, Forall_forall. intros c C.
    exact (proj1 (Forall_forall _ _) F c (I c C)). }
  split; [|split].
  - apply (rel_name [h; m] d); [cbn; lia| |].
    + apply Forall_forall. intros c C. apply (proj1 (Forall_forall _ _) NS). cbn in C |- *. tauto.
    + apply Forall_inv_tail, Forall_inv_tail, Forall_inv in F. apply F.
  - rewrite resolve_join by exact B. unfold put_at. rewrite !WD; try discriminate.
    + now rewrite <- app_assoc.
    + intros c C. cbn in C |- *. tauto.
    + intros c C. cbn in C |- *. tauto.
  - intros C. rewrite (located cwd base [h; m] (resolve cwd (path_join base (join [slash] [h; m]))) _ B ltac:(discriminate)).
    + rewrite resolve_join by exact B. unfold put_at. rewrite !WD; try discriminate.
      * now rewrite <- app_assoc.
      * intros c C'. cbn in C' |- *. tauto.
      * intros c C'. cbn in C' |- *. tauto.
    + rewrite <- C. f_equal. cbn [join app]. rewrite <- !app_assoc. reflexivity.
    + reflexivity.
Qed.

Theorem short_panics : forall uri out, (List.length uri < 8)%nat -> run_rsync uri out = Panic.
Proof. intros uri out L. unfold run_rsync, report_prefix. apply Nat.ltb_lt in L. rewrite L. reflexivity. Qed.

Theorem long_stops : forall uri p l lines, relative_to uri p -> ~ In 10 l -> 65536 <= Z.of_nat (List.length l) ->
  run_rsync uri (printed (l :: lines)) = Ret [].
Proof.
  intros uri p l lines R N L. unfold run_rsync. rewrite (relative_prefix _ _ R). cbn [gbind]. unfold scan_lines, printed.
  cbn [map List.concat]. rewrite <- app_assoc. cbn [app]. rewrite split_app_sep, split_single by exact N. cbn [app scan].
  destruct (split_on 10 (List.concat (map (fun l => l ++ [10]) lines))) as [|a r] eqn:E; [now apply split_nonempty in E|].
  destruct (Z.ltb_spec (Z.of_nat (List.length l)) 65536); [lia|]. reflexivity.
Qed.

Theorem deletion_named : exists uri lines, relative_to uri uri /\ Forall line_ok lines /\
  lines = [str "deleting a.cer"] /\ run_rsync uri (printed lines) = Ret [(uri ++ str "/a.cer", true)].
Proof.
  exists (address [str "h"; str "m"]), [str "deleting a.cer"]. split; [|split; [|split; [reflexivity|vm_compute; reflexivity]]].
  - apply rel_module; [discriminate|cbn; auto| |discriminate].
    repeat constructor; cbn; intros H; repeat destruct H as [H|H]; discriminate || contradiction.
  - repeat constructor.
    + intros H; cbn in H; repeat destruct H as [H|H]; discriminate || contradiction.
    + intros (r & H). apply (f_equal (fun x => last x 0)) in H. rewrite last_last in H. discriminate.
Qed.
