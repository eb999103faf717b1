(** C41, C42, C43, C57, C58, C59, C60: the main loop. *)
From Coq Require Import String Lia.
From Verif.Model Require Import Base Str Tal Paths Validator Cache Rrdp Pool Octo.
From Verif.Spec Require Import PathSpec RrdpSpec OctoSpec.
From Verif.Proofs Require Import PathProofs CacheThm OctoProofs OctoLoop OctoDisk OctoWitness.

(** C41. The rsync host first registered for an RRDP address stays, whatever
    certificates, fetch results and interleavings follow. *)
Theorem C41_pinned : forall failover fetched workers o o' p d,
  rounds failover fetched workers o o' -> o_domain o p = Some d -> o_domain o' p = Some d.
Proof. exact pinned. Qed.
Print Assumptions C41_pinned.

(** Every module fetched for an address belongs to that host. *)
Theorem C41_module_of_host : forall failover fetched workers o p m,
  rounds failover fetched workers octo_empty o -> o_fetch o p = Some m ->
  exists h, o_domain o p = Some (domain_of h) /\ module_of h m.
Proof. exact bound_module. Qed.
Print Assumptions C41_module_of_host.

(** A certificate that names another host for a known address changes nothing. *)
Theorem C41_override_ignored : forall sia o m d p prev,
  domain_module (odef [] (first_sia is_sia_repo sia)) = Some (m, d) ->
  first_sia is_sia_notify sia = Some p -> o_domain o p = Some prev -> prev <> d ->
  register sia o = o.
Proof. exact override_ignored. Qed.
Print Assumptions C41_override_ignored.

Example C41_example :
  let sia h := [(SiaRepo, str "rsync://" ++ str h ++ str "/m/x/"); (SiaNotify, str "https://r/n.xml")] in
  let o := register_all [sia "a"%string; sia "b"%string] octo_empty in
  o_domain o (str "https://r/n.xml") = Some (str "rsync://a/") /\
  o_fetch o (str "https://r/n.xml") = Some (str "rsync://a/m") /\
  o_jobs o (str "rsync://b/m") = None /\ o_cur o = [str "rsync://a/m"].
Proof. vm_compute. auto. Qed.

(** C42. With -output.wait the list is served only after a validation that
    found no new repository, or after more validations than the maximum. *)
Theorem C42_served_only_partial : forall c l tr e s a x y b, l_wait c = true ->
  loop_run c l lstart = (tr, e, s) -> tr = a ++ Obs x y :: b -> served c x y = true ->
  earlier_stable c (validations a).
Proof. exact served_only. Qed.
Print Assumptions C42_served_only_partial.

(** It stays served as long as the validations find nothing new. *)
Theorem C42_stays_partial : forall c l tr e s a f b,
  loop_run c l lstart = (tr, e, s) -> tr = a ++ Validated f :: b ->
  (forall l1 g l2, l = l1 ++ g :: l2 -> (length (validations a) <= length l1)%nat -> quiet l1 g) ->
  forall x y, In (Obs x y) b -> served c x y = true.
Proof. exact stays_served. Qed.
Print Assumptions C42_stays_partial.

(** A new repository makes it refused again, whatever was served before. *)
Theorem C42_from_then_on_refuted : forall c l tr s f tr' e s',
  loop_run c l lstart = (tr, false, s) -> loop_pass c f s = (tr', e, s') ->
  l_wait c = true -> l_hasprev s = true -> ~ quiet l f ->
  served c (l_stable s) (l_hasprev s) = true /\
  exists x y, In (Obs x y) tr' /\ served c x y = false.
Proof. exact refused_again. Qed.
Print Assumptions C42_from_then_on_refuted.

(** After the maximum number of validations the list is served only until the
    next one begins. *)
Theorem C42_forced_refuted : forall c l tr s f tr' s',
  loop_run c l lstart = (tr, false, s) -> loop_pass c f s = (tr', false, s') ->
  l_wait c = true -> ~ quiet l f ->
  served c (l_stable s') (l_hasprev s') = false.
Proof. exact forced_lapses. Qed.
Print Assumptions C42_forced_refuted.

Example C42_example :
  let c := mkLcfg true false 32 in
  let k := [[97]] in
  let run := loop_run c [k; k; [[98]]] lstart in
  observed (fst (fst run)) =
    [(false, false); (false, false); (false, false); (false, false);
     (false, false); (true, false); (true, true); (true, true); (false, true);
     (false, true); (false, true); (false, false); (false, false)] /\
  quiet [k] k /\ ~ quiet [k; k] [[98]].
Proof. exact loop_example. Qed.

(** C43. A validation makes the state stable iff it was not the first and
    registered no new module, or the maximum is exceeded; "has a previous
    stable state" is set in the first case only. *)
Theorem C43_stable_iff : forall c l tr s f tr' e s',
  loop_run c l lstart = (tr, false, s) -> loop_pass c f s = (tr', e, s') ->
  ((exists h, In (Obs true h) tr') <-> quiet l f \/ l_max c < (if l_active s then l_until s else 0) + 1) /\
  (l_hasprev s' = true <-> quiet l f).
Proof. exact declared_iff. Qed.
Print Assumptions C43_stable_iff.

(** Of any max + 1 successive passes one is declared stable. *)
Theorem C43_bounded : forall c a b tr s tr' e s',
  loop_run c a lstart = (tr, false, s) -> loop_run c b s = (tr', e, s') ->
  b <> [] -> l_max c < Z.of_nat (length b) -> exists h, In (Obs true h) tr'.
Proof. exact bounded. Qed.
Print Assumptions C43_bounded.

(** Max passes are not enough. *)
Theorem C43_max_refuted : forall max, exists l,
  Z.of_nat (length l) = Z.of_nat max /\ forall c tr e s, l_max c = Z.of_nat max ->
  loop_run c l lstart = (tr, e, s) -> e = false /\ forall h, ~ In (Obs true h) tr.
Proof. exact max_not_enough. Qed.
Print Assumptions C43_max_refuted.

Example C43_example :
  let c := mkLcfg true false 2 in
  snd (loop_run c (news 3) lstart) = mkLstate 3 3 false false false [[]; [97]; [97; 97]] [[]; [97]; [97; 97]] /\
  never_quiet (news 3).
Proof. split; [vm_compute; reflexivity|apply news_restless]. Qed.

(** C57. A repository whose host and module are proper names is downloaded by
    rsync to its own place. *)
Theorem C57_own_place_partial : forall cwd base h m, base <> [] -> name h -> name m ->
  rsync_dest cwd base (domain_of h ++ m) = Some (resolve cwd base ++ [h; m]).
Proof. exact (fun cwd base h m H => rsync_own_place cwd base H h m). Qed.
Print Assumptions C57_own_place_partial.

(** The module [".."], which a certificate can name, is downloaded into the
    cache directory itself: into the places of all hosts. *)
Theorem C57_whole_cache_refuted : forall cwd base h p, base <> [] -> name h ->
  o_jobs (register [(SiaRepo, domain_of h ++ dotdot ++ str "/"); (SiaNotify, p)] octo_empty) (domain_of h ++ dotdot) = Some p /\
  rsync_dest cwd base (domain_of h ++ dotdot) = Some (resolve cwd base).
Proof. exact whole_cache. Qed.
Print Assumptions C57_whole_cache_refuted.

(** The host [".."] gives a directory beside the cache. *)
Theorem C57_outside_refuted : forall cwd base m p, base <> [] -> name m ->
  o_jobs (register [(SiaRepo, domain_of dotdot ++ m ++ str "/"); (SiaNotify, p)] octo_empty) (domain_of dotdot ++ m) = Some p /\
  rsync_dest cwd base (domain_of dotdot ++ m) = Some (removelast (resolve cwd base) ++ [m]).
Proof. exact outside_cache. Qed.
Print Assumptions C57_outside_refuted.

Example C57_example :
  rsync_dest [] (str "/var/cache") (str "rsync://rpki.example.net/repo") = Some (map str ["var"; "cache"; "rpki.example.net"; "repo"]%string) /\
  rsync_dest [] (str "/var/cache") (str "rsync://h/..") = Some (map str ["var"; "cache"]%string) /\
  rsync_dest [] (str "/var/cache") (str "rsync://../lib") = Some (map str ["var"; "lib"]%string).
Proof. vm_compute. auto. Qed.

(** C58. The stored session and serial of a module change only by a fetch of
    an address that is bound to this module. *)
Theorem C58_own_servers_partial : forall failover fetched workers o o',
  round failover fetched workers o o' ->
  exists info, forall k, o_info o' k = info k \/ exists p a b, o_fetch o p = Some k /\ o_info o' k = Some (a, b).
Proof. exact info_by_own_servers. Qed.
Print Assumptions C58_own_servers_partial.

(** But any authority can bind its own address to the module of another, store
    a high serial for the victim's session, and so freeze the victim's updates,
    which then count as successes. *)
Theorem C58_frozen_refuted :
  forall failover (fetched : bytes -> bytes -> Z -> rresult -> Prop) h m victim other session big a b,
  ~ In slash h -> ~ In slash m -> victim <> other ->
  (forall x y, fetched other x y (ROk session big)) -> (forall x y, fetched victim x y (ROk a b)) ->
  exists o, round failover fetched 1 (register_all (both h m victim other) octo_empty) o /\
    o_fetch o victim = Some (domain_of h ++ m) /\
    o_info o (domain_of h ++ m) = Some (session, big) /\
    forall St cb snap delta n s, plain_notif n -> plain_serial big -> big <> 0 ->
      n_session n = session -> n_serial n < big ->
      fetch_rrdp St cb snap delta (Some n) session big s = (s, Done session big).
Proof. exact frozen. Qed.
Print Assumptions C58_frozen_refuted.

Example C58_example :
  let o := register_all (both (str "h") (str "m") (str "https://h/n.xml") (str "https://evil/n.xml")) octo_empty in
  o_fetch o (str "https://h/n.xml") = Some (str "rsync://h/m") /\
  o_fetch o (str "https://evil/n.xml") = Some (str "rsync://h/m").
Proof. vm_compute. auto. Qed.

(** C59. In one-off mode the loop ends after at most max + 1 validations. *)
Theorem C59_ends : forall c l tr e s, loop_run c l lstart = (tr, e, s) -> l_oneoff c = true ->
  l <> [] -> l_max c < Z.of_nat (length l) -> e = true.
Proof. exact oneoff_ends. Qed.
Print Assumptions C59_ends.

(** Having ended it has written the output iff the last validation found
    nothing new or it need not wait. *)
Theorem C59_output_partial : forall c l tr s, loop_run c l lstart = (tr, true, s) ->
  l_oneoff c = true /\
  exists a f, validations tr = a ++ [f] /\ (In Output tr <-> quiet a f \/ l_wait c = false).
Proof. exact oneoff_output. Qed.
Print Assumptions C59_output_partial.

(** So for every maximum there are runs that end without output. *)
Theorem C59_no_output_refuted : forall max c, l_max c = Z.of_nat max -> l_oneoff c = true -> l_wait c = true ->
  exists tr s, loop_run c (news (S max)) lstart = (tr, true, s) /\ ~ In Output tr.
Proof. exact ends_without_output. Qed.
Print Assumptions C59_no_output_refuted.

Example C59_example :
  let k := [[97]] in
  fst (loop_run (mkLcfg true true 32) [k; k; k] lstart) =
    ([Obs false false; Validated k; Obs false false; Obs false false; Obs false false;
      Obs false false; Validated k; Obs true false; Obs true true; Output; Obs true true], true).
Proof. vm_compute. reflexivity. Qed.

(** C60. A root certificate downloaded by HTTP is what the validation reads. *)
Theorem C60_downloaded_partial : forall cwd base failover sha get t s s' j, base <> [] -> rooted_fs s ->
  (forall f, get_rsync_uri sha t = rsync_scheme ++ f -> contains f rsync_scheme = false) ->
  fetch_tal failover sha cwd base get t s = (s', VOk, j) ->
  j = None /\ exists u d, In u (t_uris t) /\ is_http u = true /\ get u = Some d /\
    s' (resolve cwd (get_local_path (octo_map base) (get_rsync_uri sha t))) = Some (File d).
Proof. exact (fun cwd base failover sha get t s s' j H => root_downloaded cwd base H failover sha get t s s' j). Qed.
Print Assumptions C60_downloaded_partial.

(** If no download works and rsync is the fallback, a directory is made in the
    place of the certificate; after that, whatever is done to the cache, the
    certificate is not there and no HTTP download of it succeeds. *)
Theorem C60_fallback_refuted : forall cwd base failover sha get t f s s1 ops v s2, base <> [] ->
  get_rsync_uri sha t = rsync_scheme ++ f -> rooted_fs s ->
  rsync_mkdir cwd base (get_rsync_uri sha t) s = (s1, VOk) ->
  exec ops s1 = (s2, v) ->
  (forall x, s2 (resolve cwd (path_join base f)) <> Some (File x)) /\
  snd (fst (fetch_tal failover sha cwd base get t s2)) <> VOk.
Proof. exact (fun cwd base failover sha get t f s s1 ops v s2 H => root_lost cwd base H failover sha get t f s s1 ops v s2). Qed.
Print Assumptions C60_fallback_refuted.

Example C60_example :
  let t := mkTal [str "https://h/ta.cer"; str "rsync://h/ta/ta.cer"] 1 (RSAVal 1 1) in
  let sha := fun _ => [] in
  let first := fetch_tal true sha [] (str "/c") (fun _ => None) t fs0 in
  snd first = Some (str "rsync://h/ta/ta.cer") /\
  snd (rsync_mkdir [] (str "/c") (str "rsync://h/ta/ta.cer") (fst (fst first))) = VOk /\
  fst (rsync_mkdir [] (str "/c") (str "rsync://h/ta/ta.cer") (fst (fst first))) (map str ["c"; "h"; "ta"; "ta.cer"]%string) = Some Dir /\
  snd (fst (fetch_tal true sha [] (str "/c") (fun _ => Some (str "x")) t
    (fst (rsync_mkdir [] (str "/c") (str "rsync://h/ta/ta.cer") (fst (fst first)))))) = VErr /\
  snd (fst (fetch_tal true sha [] (str "/c") (fun _ => Some (str "x")) t fs0)) = VOk.
Proof. vm_compute. auto 10. Qed.
