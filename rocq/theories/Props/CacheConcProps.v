(** C104: fetches that write into the cache at the same time. *)
From Coq Require Import Lia String.
From Verif.Model Require Import Base Str Tal Paths Validator Cache Rrdp CacheConc.
From Verif.Spec Require Import PathSpec RrdpSpec CacheConcSpec.
From Verif.Proofs Require Import RrdpWitness CacheThm CacheConcProofs CacheConcThm CacheConcWitness CacheConcHosts CacheConcEnds CacheConcLast CacheConcRead CacheConcGood.

(** A fetch that runs alone can do what the model of the cache says (C34). *)
Theorem C104_alone : forall cwd base dom s es s', plays (octo_cb cwd base dom) s es s' ->
  exists sched t, conc_run (jobs_of cwd base [(dom, es)]) sched s = ([Stopped VOk], t) /\ forall l, t l = s' l.
Proof. exact (fun cwd base dom s es s' P => alone cwd base dom s es s' P s (fun _ => eq_refl)). Qed.
Print Assumptions C104_alone.

(** Places that no element names: nothing changes, at any moment. *)
Theorem C104_others : forall cwd base fetches sched s l,
  (forall dom es e d, In (dom, es) fetches -> In e es -> ~ carries cwd base dom e l d) ->
  forall x, snd (conc_run (jobs_of cwd base fetches) sched s) l = Some (File x) <-> s l = Some (File x).
Proof.
  intros cwd base fetches sched s l N. apply others. intros d W. apply fetches_write in W as (dom & es & e & F & E & C). exact (N _ _ _ _ F E C).
Qed.
Print Assumptions C104_others.

(** When all have ended: if all elements for a place have the same octets, no
    matter how many fetches and how their writes are mixed, they are there.
    Errors for withdrawals in deltas are ignored by the code, so that one of
    the elements has to be another. *)
Theorem C104_same : forall cwd base fetches sched s dom es e l d,
  all_done (fst (conc_run (jobs_of cwd base fetches) sched s)) ->
  In (dom, es) fetches -> In e es -> ~ (e_withdraw e = true /\ e_snapshot e = false) -> carries cwd base dom e l d ->
  (forall dom' es' e' d', In (dom', es') fetches -> In e' es' -> carries cwd base dom' e' l d' -> d' = d) ->
  snd (conc_run (jobs_of cwd base fetches) sched s) l = Some (File d).
Proof. exact (fun cwd base fetches sched s dom es e l d A F E N => delivered_same cwd base fetches sched s dom es e l d A F E (not_ignored e N)). Qed.
Print Assumptions C104_same.

(** If one fetch alone has elements for a place, the last of them counts. *)
Theorem C104_last : forall cwd base a dom b sched s es1 e es2 l d,
  all_done (fst (conc_run (jobs_of cwd base (a ++ (dom, es1 ++ e :: es2) :: b)) sched s)) ->
  ~ (e_withdraw e = true /\ e_snapshot e = false) -> carries cwd base dom e l d ->
  (forall e' d', In e' es2 -> ~ carries cwd base dom e' l d') ->
  (forall dom' es' e' d', In (dom', es') (a ++ b) -> In e' es' -> ~ carries cwd base dom' e' l d') ->
  snd (conc_run (jobs_of cwd base (a ++ (dom, es1 ++ e :: es2) :: b)) sched s) l = Some (File d).
Proof. exact (fun cwd base a dom b sched s es1 e es2 l d A N => delivered_last cwd base a dom b sched s es1 e es2 l d A (not_ignored e N)). Qed.
Print Assumptions C104_last.

(** And the validator finds it: the octets are at the place that is read for
    the address of the element. *)
Theorem C104_read : forall cwd base a dom b sched s es1 e es2 f, base <> [] ->
  all_done (fst (conc_run (jobs_of cwd base (a ++ (dom, es1 ++ e :: es2) :: b)) sched s)) ->
  ~ (e_withdraw e = true /\ e_snapshot e = false) ->
  e_path e = rsync_scheme ++ f -> contains f rsync_scheme = false -> contains (e_path e) dom = true ->
  (forall e' d', In e' es2 -> ~ carries cwd base dom e' (resolve cwd (get_local_path (octo_map base) (e_path e))) d') ->
  (forall dom' es' e' d', In (dom', es') (a ++ b) -> In e' es' ->
     ~ carries cwd base dom' e' (resolve cwd (get_local_path (octo_map base) (e_path e))) d') ->
  snd (conc_run (jobs_of cwd base (a ++ (dom, es1 ++ e :: es2) :: b)) sched s)
    (resolve cwd (get_local_path (octo_map base) (e_path e))) = Some (File (e_data e)).
Proof. exact (fun cwd base a dom b sched s es1 e es2 f Hb A N => read_back cwd base a dom b sched s es1 e es2 f Hb A (not_ignored e N)). Qed.
Print Assumptions C104_read.

(** When all have ended without error, every element with the domain of its
    fetch has the scheme, and the name of a file that may be written: the
    others are not passed over, except withdrawals in deltas. *)
Theorem C104_accepted : forall cwd base fetches sched s dom es e,
  all_done (fst (conc_run (jobs_of cwd base fetches) sched s)) ->
  In (dom, es) fetches -> In e es -> contains (e_path e) dom = true ->
  exists f, e_path e = rsync_scheme ++ f /\
    (~ (e_withdraw e = true /\ e_snapshot e = false) -> forall a b, f <> a ++ str "../" ++ b /\ f <> a ++ str "..\" ++ b).
Proof. exact accepted_names. Qed.
Print Assumptions C104_accepted.

(** So there the order does not matter. *)
Theorem C104_any_order : forall cwd base a dom es b l,
  (forall dom' es' e' d', In (dom', es') (a ++ b) -> In e' es' -> ~ carries cwd base dom' e' l d') ->
  (forall e d, In e es -> carries cwd base dom e l d -> ~ (e_withdraw e = true /\ e_snapshot e = false)) ->
  forall sched sched' s,
  let jobs := jobs_of cwd base (a ++ (dom, es) :: b) in
  all_done (fst (conc_run jobs sched s)) -> all_done (fst (conc_run jobs sched' s)) ->
  forall x, snd (conc_run jobs sched s) l = Some (File x) -> snd (conc_run jobs sched' s) l = Some (File x).
Proof. exact any_order. Qed.
Print Assumptions C104_any_order.

(** And at any moment, also after an error or the end of the process, the file
    is as before, or whole, or a beginning of what is being written. *)
Theorem C104_moments : forall cwd base a dom es b l,
  (forall dom' es' e' d', In (dom', es') (a ++ b) -> In e' es' -> ~ carries cwd base dom' e' l d') ->
  forall sched s x, snd (conc_run (jobs_of cwd base (a ++ (dom, es) :: b)) sched s) l = Some (File x) ->
  s l = Some (File x) \/
  exists e d, In e es /\ carries cwd base dom e l d /\
    (x = d \/ (being_written (fst (conc_run (jobs_of cwd base (a ++ (dom, es) :: b)) sched s)) l /\ exists k, x = firstn k d)).
Proof. exact moments. Qed.
Print Assumptions C104_moments.

(** Without these conditions: every octet is that of an element for the place,
    at the same position, or zero. *)
Theorem C104_octets : forall cwd base fetches sched s l x,
  snd (conc_run (jobs_of cwd base fetches) sched s) l = Some (File x) ->
  s l = Some (File x) \/
  forall k b, nth_error x k = Some b -> b = 0 \/
    exists dom es e d, In (dom, es) fetches /\ In e es /\ carries cwd base dom e l d /\ nth_error d k = Some b.
Proof.
  intros cwd base fetches sched s l x H. destruct (octets _ _ _ _ _ H) as [A|A]; [now left|right].
  intros k b K. destruct (A k b K) as [Z|(d & W & D)]; [now left|right]. apply fetches_write in W as (dom & es & e & F & E & C). exists dom, es, e, d. auto.
Qed.
Print Assumptions C104_octets.

(** If every fetch gets enough steps, all come to their end, with or without
    an error, or one has ended the process; then nothing follows. *)
Theorem C104_ends : forall cwd base fetches, exists N, forall sched s,
  (forall i, (i < List.length fetches)%nat -> (N <= count_occ PeanoNat.Nat.eq_dec (map fst sched) i)%nat) ->
  In (Stopped VFatal) (fst (conc_run (jobs_of cwd base fetches) sched s)) \/
  Forall (fun p => exists v, p = Stopped v) (fst (conc_run (jobs_of cwd base fetches) sched s)).
Proof.
  intros cwd base fetches. destruct (ends (jobs_of cwd base fetches)) as (N & H). exists N. intros sched s C. apply H.
  unfold jobs_of. rewrite map_length. exact C.
Qed.
Print Assumptions C104_ends.
(** And all end without error, if the names are those of files that may be
    written and no place of a file is the place of a directory, neither in the
    names nor in the cache. *)
Theorem C104_success : forall cwd base fetches (files dirs : loc -> Prop),
  (forall l, files l -> dirs l -> False) ->
  (forall dom es e, In (dom, es) fetches -> In e es -> contains (e_path e) dom = true ->
     exists f dir, e_path e = rsync_scheme ++ f /\ extract_folders (e_path e) = Some dir /\ bad_path f = false /\
       files (resolve cwd (path_join base f)) /\
       forall p q, p <> [] -> resolve cwd (path_join base dir) = p ++ q -> dirs p) ->
  exists N, forall sched s,
  (forall l, (dirs l -> forall x, s l <> Some (File x)) /\ (files l -> s l <> Some Dir)) ->
  (forall i, (i < List.length fetches)%nat -> (N <= count_occ PeanoNat.Nat.eq_dec (map fst sched) i)%nat) ->
  all_done (fst (conc_run (jobs_of cwd base fetches) sched s)).
Proof. exact success. Qed.
Print Assumptions C104_success.
Theorem C104_fatal : forall cwd base fetches sched sched' s,
  In (Stopped VFatal) (fst (conc_run (jobs_of cwd base fetches) sched s)) ->
  conc_run (jobs_of cwd base fetches) (sched ++ sched') s = conc_run (jobs_of cwd base fetches) sched s.
Proof. exact (fun cwd base fetches => fatal_end (jobs_of cwd base fetches)). Qed.
Print Assumptions C104_fatal.

(** Nothing disappears: directories stay, and files are only written anew. *)
Theorem C104_stays : forall cwd base fetches sched s l,
  (s l = Some Dir -> snd (conc_run (jobs_of cwd base fetches) sched s) l = Some Dir) /\
  (forall x, s l = Some (File x) -> exists y, snd (conc_run (jobs_of cwd base fetches) sched s) l = Some (File y)).
Proof. exact (fun cwd base fetches => stays (jobs_of cwd base fetches)). Qed.
Print Assumptions C104_stays.

(** One fetch for each host: below the directory of its host, the files are
    its own, at any moment and at the end.  Places with a component that ends
    with "rsync:" are excluded, see the example. *)
Theorem C104_hosts : forall cwd base h r a es b, base <> [] ->
  (forall dom' es', In (dom', es') (a ++ b) -> exists h', name h' /\ h' <> h /\ dom' = domain_of h') ->
  (forall y, ~ In (y ++ str "rsync:") (h :: r)) ->
  forall sched s x, snd (conc_run (jobs_of cwd base (a ++ (domain_of h, es) :: b)) sched s) (resolve cwd base ++ h :: r) = Some (File x) ->
  s (resolve cwd base ++ h :: r) = Some (File x) \/
  exists e d, In e es /\ carries cwd base (domain_of h) e (resolve cwd base ++ h :: r) d /\
    (x = d \/ (being_written (fst (conc_run (jobs_of cwd base (a ++ (domain_of h, es) :: b)) sched s)) (resolve cwd base ++ h :: r) /\ exists k, x = firstn k d)).
Proof. exact hosts. Qed.
Print Assumptions C104_hosts.
Theorem C104_hosts_end : forall cwd base h r a es1 e es2 b d, base <> [] ->
  (forall dom' es', In (dom', es') (a ++ b) -> exists h', name h' /\ h' <> h /\ dom' = domain_of h') ->
  (forall y, ~ In (y ++ str "rsync:") (h :: r)) ->
  ~ (e_withdraw e = true /\ e_snapshot e = false) -> carries cwd base (domain_of h) e (resolve cwd base ++ h :: r) d ->
  (forall e' d', In e' es2 -> ~ carries cwd base (domain_of h) e' (resolve cwd base ++ h :: r) d') ->
  forall sched s, all_done (fst (conc_run (jobs_of cwd base (a ++ (domain_of h, es1 ++ e :: es2) :: b)) sched s)) ->
  snd (conc_run (jobs_of cwd base (a ++ (domain_of h, es1 ++ e :: es2) :: b)) sched s) (resolve cwd base ++ h :: r) = Some (File d).
Proof. exact hosts_end. Qed.
Print Assumptions C104_hosts_end.

(** More is not true: two fetches of one host that have different octets for
    an address, both ending without error, can leave a mixture of them. *)
Theorem C104_whole_refuted : exists fetches sched l x,
  all_done (fst (conc_run (jobs_of [] cache_base fetches) sched cache0)) /\
  snd (conc_run (jobs_of [] cache_base fetches) sched cache0) l = Some (File x) /\
  cache0 l = None /\
  forall dom es e, In (dom, es) fetches -> In e es -> ~ carries [] cache_base dom e l x.
Proof. exact mixture. Qed.
Print Assumptions C104_whole_refuted.

(** The mixture when both have opened the file before the first writes, and
    the hole when one opens it while the other is writing. *)
Example C104_example_mixed :
  let run sched := conc_run (jobs_of [] cache_base (c_fetches (str "abc") (str "X"))) sched cache0 in
  fst (run c_both) = [Stopped VOk; Stopped VOk] /\ snd (run c_both) c_place = Some (File (str "Xbc")) /\
  fst (run c_between) = [Stopped VOk; Stopped VOk] /\ snd (run c_between) c_place = Some (File [88; 0; 99]).
Proof. vm_compute. auto. Qed.

(** Two orders for two hosts. *)
Example C104_example_order :
  let run sched := conc_run (jobs_of [] cache_base [(c_dom, [c_elem c_url (str "abc")]); (domain_of (str "k"), [c_elem (str "rsync://k/a.cer") (str "X")])]) sched cache0 in
  let one := run (repeat (0, 0)%nat 20 ++ repeat (1, 0)%nat 20) in
  let two := run (flat_map (fun _ => [(1, 9); (0, 1)]%nat) (seq 0 20)) in
  fst one = [Stopped VOk; Stopped VOk] /\ fst two = [Stopped VOk; Stopped VOk] /\
  snd one c_place = Some (File (str "abc")) /\ snd two c_place = Some (File (str "abc")).
Proof. vm_compute. auto. Qed.

(** The conditions of C104_success for one address: files four deep in the
    tree, directories above.  With a file in the place of a directory the
    process ends. *)
Example C104_example_success :
  let files (l : loc) := l = c_place in
  let dirs (l : loc) := (List.length l <= 3)%nat in
  (forall l, files l -> dirs l -> False) /\
  (exists f dir, c_url = rsync_scheme ++ f /\ extract_folders c_url = Some dir /\ bad_path f = false /\
     files (resolve [] (path_join cache_base f)) /\
     forall p q, p <> [] -> resolve [] (path_join cache_base dir) = p ++ q -> dirs p) /\
  (forall l, (dirs l -> forall x, cache0 l <> Some (File x)) /\ (files l -> cache0 l <> Some Dir)) /\
  fst (conc_run (jobs_of [] cache_base (c_fetches (str "abc") (str "X"))) c_both cache0) = [Stopped VOk; Stopped VOk] /\
  fst (conc_run (jobs_of [] cache_base (c_fetches (str "abc") (str "X"))) c_both (fset cache0 (map str ["c"; "h"]%string) (File []))) <> [Stopped VOk; Stopped VOk].
Proof. exact success_case. Qed.

(** What is read for the two addresses after them. *)
Example C104_example_read :
  let run := conc_run (jobs_of [] cache_base [(c_dom, [c_elem c_url (str "old"); c_elem c_url (str "abc")]); (domain_of (str "k"), [c_elem (str "rsync://k/a.cer") (str "X")])])
               (flat_map (fun _ => [(1, 9); (0, 1)]%nat) (seq 0 30)) cache0 in
  fst run = [Stopped VOk; Stopped VOk] /\
  snd run (resolve [] (get_local_path (octo_map cache_base) c_url)) = Some (File (str "abc")) /\
  snd run (resolve [] (get_local_path (octo_map cache_base) (str "rsync://k/a.cer"))) = Some (File (str "X")) /\
  contains (str "h/m/a.cer") rsync_scheme = false /\ contains c_url c_dom = true /\ bad_path (str "h/m/a.cer") = false.
Proof. vm_compute. auto 8. Qed.

(** The same orders with equal octets. *)
Example C104_example_same :
  let run sched := conc_run (jobs_of [] cache_base (c_fetches (str "abc") (str "abc"))) sched cache0 in
  fst (run c_both) = [Stopped VOk; Stopped VOk] /\ snd (run c_both) c_place = Some (File (str "abc")) /\
  fst (run (c_between ++ c_both)) = [Stopped VOk; Stopped VOk] /\ snd (run (c_between ++ c_both)) c_place = Some (File (str "abc")) /\
  carries [] cache_base c_dom (c_elem c_url (str "abc")) c_place (str "abc").
Proof. cbv zeta. repeat split; try (vm_compute; reflexivity). exists (str "h/m/a.cer"). repeat split; vm_compute; reflexivity. Qed.

(** A withdrawal in a delta that cannot be written does not stop its fetch; a
    publication does. *)
Example C104_example_ignored :
  let bad w := mkEvent (str "https://r/snap.xml") (str "rsync://h/../x.cer") [] w false 9 in
  let run w := conc_run (jobs_of [] cache_base [(c_dom, [bad w; c_elem c_url (str "abc")])]) (repeat (0, 9)%nat 20) cache0 in
  fst (run true) = [Stopped VOk] /\ snd (run true) c_place = Some (File (str "abc")) /\
  fst (run false) = [Stopped VErr] /\ snd (run false) c_place = None.
Proof. vm_compute. auto. Qed.

(** Two hosts at the same time: each has its file.  But an address with the
    domains of both is accepted from both, and their octets are mixed. *)
Example C104_example_hosts :
  let run u u' sched := conc_run (jobs_of [] cache_base [(domain_of (str "h"), [c_elem u (str "abc")]); (domain_of (str "k"), [c_elem u' (str "X")])]) sched cache0 in
  let two := run c_url (str "rsync://k/m/a.cer") c_both in
  let u2 := str "rsync://h/rsync://k/a.cer" in
  let one := run u2 u2 ([(0, 0); (1, 0)]%nat ++ c_both) in
  fst two = [Stopped VOk; Stopped VOk] /\
  snd two c_place = Some (File (str "abc")) /\ snd two (map str ["c"; "k"; "m"; "a.cer"]%string) = Some (File (str "X")) /\
  c_place = resolve [] cache_base ++ str "h" :: [str "m"; str "a.cer"] /\
  fst one = [Stopped VOk; Stopped VOk] /\
  snd one (map str ["c"; "h"; "rsync:"; "k"; "a.cer"]%string) = Some (File (str "Xbc")).
Proof. vm_compute. auto 8. Qed.

(** An address with another scheme ends the process, and with it the fetch of
    the other host, whose file is left half written. *)
Example C104_example_fatal :
  let run := conc_run (jobs_of [] cache_base [(c_dom, [c_elem c_url (str "abc")]); (domain_of (str "k"), [c_elem (str "https://x/rsync://k/a.cer") []])])
               ([(0, 0); (0, 0); (0, 0); (0, 0); (0, 0); (1, 0)]%nat ++ repeat (0, 9)%nat 20) cache0 in
  nth_error (fst run) 1 = Some (Stopped VFatal) /\ snd run c_place = Some (File (str "a")) /\
  nth_error (fst run) 0 = Some (Running (Some (c_place, str "abc", 1%nat)) []).
Proof. vm_compute. auto. Qed.

(** For C34, by C104_alone and C104_last: the last element for a place decides
    its content.  Only for withdrawals in deltas, whose errors are ignored, a
    directory may be in their place, as in C34_content_replaced_partial. *)
Theorem C34_content_replaced : forall cwd base domain s a e b s' f,
  plays (octo_cb cwd base domain) s (a ++ e :: b) s' -> ~ (e_withdraw e = true /\ e_snapshot e = false) ->
  e_path e = rsync_scheme ++ f -> contains (e_path e) domain = true -> bad_path f = false ->
  (forall e' f', In e' b -> e_path e' = rsync_scheme ++ f' ->
     resolve cwd (path_join base f') <> resolve cwd (path_join base f)) ->
  s' (resolve cwd (path_join base f)) = Some (File (e_data e)).
Proof. exact replaced. Qed.
Print Assumptions C34_content_replaced.
Example C34_example_replaced : exists s',
  plays (octo_cb [] cache_base c_dom) cache0 ([c_elem c_url (str "abc")] ++ c_elem c_url (str "X") :: []) s' /\
  s' c_place = Some (File (str "X")) /\
  snd (octo_cb [] cache_base c_dom (mkEvent (str "https://r/d.xml") (str "rsync://h/m") [] true false 9) s') = VErr.
Proof.
  eexists. split; [|split].
  - cbn [app]. eapply plays_cons; [apply surjective_pairing|left; vm_compute; reflexivity|].
    eapply plays_cons; [apply surjective_pairing|left; vm_compute; reflexivity|apply plays_nil].
  - vm_compute. reflexivity.
  - vm_compute. reflexivity.
Qed.
