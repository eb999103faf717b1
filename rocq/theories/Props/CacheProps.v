(** C34, C36, C37, C38, C56: the cache on disk. *)
From Coq Require Import String Lia.
From Verif.Model Require Import Base Str Tal Base64 TalText Paths Validator Cache Rrdp.
From Verif.Spec Require Import B64 PathSpec RrdpSpec.
From Verif.Proofs Require Import StrProofs PathProofs RrdpProofs RrdpCrash CacheProofs CacheThm CacheEvents RrdpWitness CacheWitness.

(** C34. After an update, the place of an address holds the data of the last
    element delivered for it (nothing, for a withdrawal without text), or was
    made a directory. *)
Theorem C34_content_replaced_partial : forall cwd base domain s a e b s' f,
  base <> [] -> rooted_fs s -> plays (octo_cb cwd base domain) s (a ++ e :: b) s' ->
  e_path e = rsync_scheme ++ f -> contains (e_path e) domain = true -> bad_path f = false ->
  (forall e' f', In e' b -> e_path e' = rsync_scheme ++ f' ->
     resolve cwd (path_join base f') <> resolve cwd (path_join base f)) ->
  s' (resolve cwd (path_join base f)) = Some (File (e_data e)) \/
  s' (resolve cwd (path_join base f)) = Some Dir.
Proof. exact (fun cwd base domain s a e b s' f H => last_event cwd base domain H s a e b s' f). Qed.
Print Assumptions C34_content_replaced_partial.

(** So it never disappears: a withdrawal leaves an (empty) file. *)
Theorem C34_withdrawn_refuted : forall cwd base domain s a e b s' f,
  base <> [] -> rooted_fs s -> plays (octo_cb cwd base domain) s (a ++ e :: b) s' ->
  e_path e = rsync_scheme ++ f -> contains (e_path e) domain = true -> bad_path f = false ->
  s' (resolve cwd (path_join base f)) <> None.
Proof. exact (fun cwd base domain s a e b s' f H => never_removed cwd base domain H s a e b s' f). Qed.
Print Assumptions C34_withdrawn_refuted.

(** A file that no delivered element names stays as it is, also when a
    snapshot does not list it. *)
Theorem C34_unlisted_refuted : forall cwd base domain s es s' l x,
  base <> [] -> rooted_fs s -> plays (octo_cb cwd base domain) s es s' ->
  (forall e f, In e es -> e_path e = rsync_scheme ++ f -> resolve cwd (path_join base f) <> l) ->
  s l = Some (File x) -> s' l = Some (File x).
Proof.
  exact (fun cwd base domain s es s' l x H R P N => proj1 (proj1 (plays_other cwd base domain H s es s' l P R N) x)).
Qed.
Print Assumptions C34_unlisted_refuted.

Example C34_example :
  let run := fetch_rrdp fs (octo_cb [] cache_base ex_domain) ex_snap ex_delta2 (Some ex_notif) (str "s") 7 cache0 in
  snd run = Done (str "s") 9 /\ fst run ex_place = Some (File []).
Proof. vm_compute. auto. Qed.

(** C36. Whatever the address, files are created or changed only strictly
    below the cache directory. *)
Theorem C36_files_inside : forall cwd base url data s s' v l x,
  base <> [] -> rooted_fs s ->
  exec (write_ops cwd base url data) s = (s', v) -> s' l = Some (File x) ->
  s l = Some (File x) \/ (below (resolve cwd base) l /\ x = data).
Proof. exact (fun cwd base url data s s' v l x H => files_inside cwd base H url data s s' v l x). Qed.
Print Assumptions C36_files_inside.

(** If the write succeeds then directories too are made only below it, or on
    the way to it. *)
Theorem C36_accepted_inside : forall cwd base url data s s' l,
  base <> [] -> rooted_fs s ->
  exec (write_ops cwd base url data) s = (s', VOk) -> s' l <> s l ->
  below (resolve cwd base) l \/ (s l = None /\ s' l = Some Dir /\ exists r, resolve cwd base = l ++ r).
Proof. exact (fun cwd base url data s s' l H => accepted_inside cwd base H url data s s' l). Qed.
Print Assumptions C36_accepted_inside.

(** Nothing is written for an address in which two dots are followed by a slash
    or a backslash, and a manifest that lists such a name yields no files. *)
Theorem C36_steps_up_refused : forall cwd base a u b data s s' v,
  base <> [] -> rooted_fs s -> u = str "../" \/ u = str "..\" ->
  exec (write_ops cwd base (str "rsync://" ++ a ++ u ++ b) data) s = (s', v) ->
  v <> VOk /\ forall l x, s' l = Some (File x) -> s l = Some (File x).
Proof. exact up_not_written. Qed.
Print Assumptions C36_steps_up_refused.

Theorem C36_steps_up_not_listed : forall files a u b h,
  u = str "../" \/ u = str "..\" -> In (a ++ u ++ b, h) files -> extract_path_mft files = None.
Proof. exact up_not_listed. Qed.
Print Assumptions C36_steps_up_not_listed.

(** But an address that is refused in the end makes a directory of any name
    beside the cache directory. *)
Theorem C36_directories_refuted : forall cwd base h x data s s' v,
  base <> [] -> name h -> name x -> rooted_fs s ->
  (forall p r y, removelast (resolve cwd base) ++ [x] = p ++ r -> s p <> Some (File y)) ->
  exec (callback_ops cwd base (domain_of h)
    (rsync_scheme ++ dotdot ++ [slash] ++ x ++ [slash] ++ domain_of h ++ str "f") data) s = (s', v) ->
  s' (removelast (resolve cwd base) ++ [x]) = Some Dir.
Proof. exact (fun cwd base h x data s s' v H => directory_outside cwd base H h x data s s' v). Qed.
Print Assumptions C36_directories_refuted.

Example C36_example :
  exists s', exec (write_ops [] (str "/var/cache") (str "rsync://h/m//./a.cer") (str "x")) cache0 = (s', VOk) /\
  s' (map str ["var"; "cache"; "h"; "m"; "a.cer"]%string) = Some (File (str "x")) /\
  snd (exec (write_ops [] (str "/var/cache") (str "rsync://h/../../etc/passwd") (str "x")) cache0) = VErr /\
  fst (exec (write_ops [] (str "/var/cache") (str "rsync://h/../../etc/passwd") (str "x")) cache0)
    (map str ["var"; "etc"; "passwd"]%string) = None /\
  fst (exec (write_ops [] (str "/var/cache") (str "rsync://h/../../etc/passwd") (str "x")) cache0)
    (map str ["var"; "etc"]%string) = Some Dir.
Proof. eexists. split; [match goal with |- ?x = _ => rewrite (surjective_pairing x) end; f_equal; vm_compute; reflexivity|]. vm_compute. auto. Qed.

(** C37. For a host that is a proper name, files delivered by its server are
    below the directory of the host, or below some directory ending in
    ["rsync:"] and then the host's name. *)
Theorem C37_own_host_partial : forall cwd base h url data s s' v l x,
  base <> [] -> rooted_fs s -> name h ->
  exec (callback_ops cwd base (domain_of h) url data) s = (s', v) -> s' l = Some (File x) ->
  s l = Some (File x) \/ below (resolve cwd base ++ [h]) l \/
  exists a y b, l = resolve cwd base ++ a ++ (y ++ str "rsync:") :: h :: b.
Proof. exact (fun cwd base h url data s s' v l x H => domain_partial cwd base H h url data s s' v l x). Qed.
Print Assumptions C37_own_host_partial.

(** The second case happens below the directory of any other host: the address
    only has to contain the text of the domain. *)
Theorem C37_substring_refuted : forall cwd base h victim x data,
  base <> [] -> name h -> name victim -> name x ->
  bad_path (victim ++ [slash] ++ domain_of h ++ x) = false ->
  callback_ops cwd base (domain_of h) (rsync_scheme ++ victim ++ [slash] ++ domain_of h ++ x) data =
    map ODir (prefixes (resolve cwd base ++ [victim; str "rsync:"; h])) ++
    [OFile (resolve cwd base ++ [victim; str "rsync:"; h; x]) data].
Proof. exact (fun cwd base h victim x data H => domain_substring cwd base H h victim x data). Qed.
Print Assumptions C37_substring_refuted.

(** A server whose rsync host is ["."] writes any file of any host. *)
Theorem C37_dot_host_refuted : forall cwd base v data,
  base <> [] -> bad_path v = false ->
  domain_module (domain_of dot ++ str "m/") = Some (domain_of dot ++ str "m", domain_of dot) /\
  callback_ops cwd base (domain_of dot) (rsync_scheme ++ dot ++ [slash] ++ v) data =
    write_ops cwd base (rsync_scheme ++ v) data.
Proof. exact dot_host. Qed.
Print Assumptions C37_dot_host_refuted.

Example C37_example :
  exec (callback_ops [] cache_base (domain_of (str "h")) (str "rsync://other/m/a.cer") (str "x")) cache0 = (cache0, VOk) /\
  fst (exec (callback_ops [] cache_base (domain_of (str "h")) (str "rsync://h/m/a.cer") (str "x")) cache0)
    (map str ["c"; "h"; "m"; "a.cer"]%string) = Some (File (str "x")) /\
  fst (exec (callback_ops [] cache_base (domain_of dot) (str "rsync://./victim/m/a.cer") (str "x")) cache0)
    (map str ["c"; "victim"; "m"; "a.cer"]%string) = Some (File (str "x")).
Proof. vm_compute. auto. Qed.

(** C38. The place that is read for an address is the place its data was
    written to, if the address contains the scheme once. *)
Theorem C38_same_place_partial : forall cwd base f, base <> [] ->
  contains f rsync_scheme = false ->
  resolve cwd (get_local_path (octo_map base) (rsync_scheme ++ f)) = resolve cwd (path_join base f).
Proof. exact (fun cwd base f H => read_place cwd base H f). Qed.
Print Assumptions C38_same_place_partial.

Theorem C38_read_after_write_partial : forall cwd base url data s s', base <> [] -> rooted_fs s ->
  (forall f, url = rsync_scheme ++ f -> contains f rsync_scheme = false) ->
  exec (write_ops cwd base url data) s = (s', VOk) ->
  s' (resolve cwd (get_local_path (octo_map base) url)) = Some (File data).
Proof. exact (fun cwd base url data s s' H => read_after_write cwd base H url data s s'). Qed.
Print Assumptions C38_read_after_write_partial.

(** Otherwise not. *)
Theorem C38_twice_refuted :
  exists s', exec (write_ops [] cache_base (str "rsync://h/rsync://x/a.cer") (str "data")) cache0 = (s', VOk) /\
  resolve [] (get_local_path (octo_map cache_base) (str "rsync://h/rsync://x/a.cer")) = map str ["c"; "h"; "c"; "x"; "a.cer"]%string /\
  s' (resolve [] (get_local_path (octo_map cache_base) (str "rsync://h/rsync://x/a.cer"))) = None.
Proof. exact twice_run. Qed.
Print Assumptions C38_twice_refuted.

Example C38_example :
  contains (str "h/m/../x") rsync_scheme = false /\
  resolve (map str ["w"]%string) (get_local_path (octo_map (str "cache/")) (str "rsync://h/m/../x")) = map str ["w"; "cache"; "h"; "x"]%string.
Proof. vm_compute. auto. Qed.

(** C56. An address with the scheme and no file among the directories it goes
    through does not end the process. *)
Theorem C56_no_exit_partial : forall cwd base domain e s s' v f d x,
  base <> [] -> octo_cb cwd base domain e s = (s', v) ->
  e_path e = rsync_scheme ++ f -> split_on slash f = d ++ [x] ->
  (forall p r y, fold_left walk d (resolve cwd base) = p ++ r -> s p <> Some (File y)) -> v <> VFatal.
Proof. exact (fun cwd base domain e s s' v f d x H => no_fatal cwd base domain H e s s' v f d x). Qed.
Print Assumptions C56_no_exit_partial.

(** An address without the scheme that contains the text of the domain does. *)
Theorem C56_scheme_refuted : forall cwd base domain snap delta n ls last s u t ps ws d,
  needs_snapshot n ls last -> plain_notif n -> plain_serial last ->
  snap (n_snapshot n) = Some ((u, t) :: ps, ws) -> b64_text (strip t) d ->
  is_rsync_url u = false -> contains u domain = true ->
  fetch_rrdp fs (octo_cb cwd base domain) snap delta (Some n) ls last s = (s, Exited).
Proof. exact exits_on_scheme. Qed.
Print Assumptions C56_scheme_refuted.

(** So does an address that uses a file as a directory. *)
Theorem C56_nested_refuted : forall cwd base domain e s s' v f d x p r y,
  base <> [] -> octo_cb cwd base domain e s = (s', v) ->
  e_path e = rsync_scheme ++ f -> contains (e_path e) domain = true -> split_on slash f = d ++ [x] ->
  fold_left walk d (resolve cwd base) = p ++ r -> p <> [] -> s p = Some (File y) -> v = VFatal.
Proof. exact (fun cwd base domain e s s' v f d x p r y H => fatal_nested cwd base domain H e s s' v f d x p r y). Qed.
Print Assumptions C56_nested_refuted.

Example C56_example :
  let snap (_ : bytes) := Some ([(str "rsync://h/m/a", str "aGVsbG8="); (str "rsync://h/m/a/b", str "aGVsbG8=")], @nil elem) in
  snd (fetch_rrdp fs (octo_cb [] cache_base ex_domain) snap ex_delta (Some ex_notif) (str "old") 7 cache0) = Exited /\
  let snap (_ : bytes) := Some ([(str "http://x/rsync://h/", str "aGVsbG8=")], @nil elem) in
  snd (fetch_rrdp fs (octo_cb [] cache_base ex_domain) snap ex_delta (Some ex_notif) (str "old") 7 cache0) = Exited.
Proof. vm_compute. auto. Qed.
