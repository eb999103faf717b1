(** C102: from downloads to the cache, and from there to what a consumer is
    told. *)
From Coq Require Import List ZArith Lia Bool String.
From Verif.Model Require Import Base Str Base64 NetIP CertRes Roa Ber Asn1 GoTime Der Tal Validator Explore ObjDer TalText TalDer FileDecoders NetText Json Output StateFile Patricia Ov X509 Paths Cache Rrdp RrdpXml XmlLex RrdpHttp Pool Octo NetCache.
From Verif.Spec Require Import Addr Resources Bits Canon IpExtSpec ContentSpec SignedSpec Trust Discovery CtSpec OutputSpec OvSpec EndSpec JsonSpec StateSpec X509Spec ChainSpec VerdictSpec B64 PathSpec RrdpSpec RrdpHttpSpec NetCacheSpec.
From Verif.Proofs Require Import EndThm ObjWitness ExploreWitness EndWitness X509Witness XmlLexRun RrdpHttpThm NetCacheProofs NetCacheThm NetCacheRun.
Import ListNotations.
Open Scope Z_scope.

Section C102.
Variable limit : Z.
Variables first_more second_more : Z -> bool.
Variable refuse_colons : bool.
Variable cb_text : event -> fs -> bytes.
Variable bad_at : bytes -> Z.
Variable failover : bool.
Variable hex_sha1 : bytes -> bytes.
Variable cwd : loc.
Variable base : bytes.
Hypothesis base_given : base <> [].
Notation disk_of := (disk_of cwd base).
Notation run_sources := (run_sources limit first_more second_more refuse_colons cb_text bad_at failover hex_sha1 cwd base).
Notation delivers := (delivers limit first_more second_more refuse_colons hex_sha1 cwd base).

(** Whatever is downloaded, in whatever order and with whatever errors: a file
    of the file system was there at the start with these octets, or one of the
    sources delivered these octets for this place. *)
Theorem C102_origin : forall srcs s l x, s [] = Some Dir -> run_sources srcs s l = Some (File x) ->
  s l = Some (File x) \/ exists src, In src srcs /\ delivers src l x.
Proof. intros srcs s l x R. exact (proj2 (sources_origin limit first_more second_more refuse_colons cb_text bad_at failover hex_sha1 cwd base base_given srcs s R) l x). Qed.

(** Nothing is lost: a file that no run of rsync covers is still a file in the
    end, with the octets it had or with those a source delivered for it. *)
Theorem C102_kept : forall srcs s l x, s [] = Some Dir -> s l = Some (File x) ->
  (forall uri files d c r, In (FromRsync uri files) srcs -> place cwd base uri d -> l <> d ++ c :: r) ->
  exists y, run_sources srcs s l = Some (File y) /\ (y = x \/ exists src, In src srcs /\ delivers src l y).
Proof. exact (sources_keep limit first_more second_more refuse_colons cb_text bad_at failover hex_sha1 cwd base base_given). Qed.

(** [C102_origin] for what the validator reads under an address. *)
Theorem C102_read : forall srcs s p x, s [] = Some Dir -> disk_of (run_sources srcs s) p = Some x ->
  disk_of s p = Some x \/ exists src, In src srcs /\ delivers src (resolve cwd (get_local_path (octo_map base) p)) x.
Proof. exact (disk_origin limit first_more second_more refuse_colons cb_text bad_at failover hex_sha1 cwd base base_given). Qed.

(** After an update from a snapshot that ended without an error the validator
    reads under the address of each published element the octets of its base64
    text, if the address is in the domain and no later element has its place. *)
Theorem C102_arrives_partial : forall domain web path ls last s s' a b q body n sbody p1 t p2 w f d,
  s [] = Some Dir -> complete limit (web path) body -> parse_root_octets first_more second_more refuse_colons body = XOk n ->
  plain_notif n -> plain_serial last -> needs_snapshot n ls last ->
  fetch_http limit first_more second_more refuse_colons fs (octo_cb cwd base domain) cb_text bad_at web path ls last s = (s', HDone a b, q) ->
  complete limit (web (n_snapshot n)) sbody ->
  parse_node_octets first_more second_more refuse_colons sbody = XOk (p1 ++ (str "rsync://" ++ f, t) :: p2, w) ->
  contains (str "rsync://" ++ f) domain = true -> contains f (str "rsync://") = false -> b64_text (strip t) d ->
  (forall a' t' f', In (a', t') (p2 ++ w) -> a' = str "rsync://" ++ f' -> resolve cwd (path_join base f') <> resolve cwd (path_join base f)) ->
  disk_of s' (str "rsync://" ++ f) = Some d.
Proof. exact (arrives limit first_more second_more refuse_colons cb_text bad_at cwd base base_given). Qed.

(** The same after an update from deltas; no element of a later delta may have
    its place either. *)
Theorem C102_arrives_delta_partial : forall domain web path ls last s s' a b q body n k u dbody p1 t p2 w f d,
  s [] = Some Dir -> complete limit (web path) body -> parse_root_octets first_more second_more refuse_colons body = XOk n ->
  plain_notif n -> plain_serial last -> ~ needs_snapshot n ls last -> n_serial n < 2 ^ 63 - 1 ->
  fetch_http limit first_more second_more refuse_colons fs (octo_cb cwd base domain) cb_text bad_at web path ls last s = (s', HDone a b, q) ->
  last < k <= n_serial n -> announces n k u ->
  complete limit (web u) dbody ->
  parse_node_octets first_more second_more refuse_colons dbody = XOk (p1 ++ (str "rsync://" ++ f, t) :: p2, w) ->
  contains (str "rsync://" ++ f) domain = true -> contains f (str "rsync://") = false -> b64_text (strip t) d ->
  (forall a' t' f', In (a', t') (p2 ++ w) -> a' = str "rsync://" ++ f' -> resolve cwd (path_join base f') <> resolve cwd (path_join base f)) ->
  (forall k' u' b' p' w' a' t' f', k < k' <= n_serial n -> announces n k' u' -> complete limit (web u') b' ->
     parse_node_octets first_more second_more refuse_colons b' = XOk (p', w') -> In (a', t') (p' ++ w') ->
     a' = str "rsync://" ++ f' -> resolve cwd (path_join base f') <> resolve cwd (path_join base f)) ->
  disk_of s' (str "rsync://" ++ f) = Some d.
Proof. exact (arrives_delta limit first_more second_more refuse_colons cb_text bad_at hex_sha1 cwd base base_given). Qed.

(** What a consumer is told about a route rests on a certified ROA whose octets
    were in the cache before or came from one of the sources. *)
Section Told.
Variable sha256 : bytes -> bytes.
Hypothesis sha_len : forall x, List.length (sha256 x) = 32%nat.
Variable all_versions keep : bool.
Variable points : list extension -> list bytes.
Variable more : bytes -> bool.
Variable other_sig : list Z * bytes -> bytes -> bytes -> bytes -> bool.
Variable excused : bytes -> bool.
Variable strict : bool.
Variable crl_sig_ok : cert -> crl -> bool.
Variable dec_crl : bytes -> option crl.
Variable synced : bytes -> bool.
Variable clock : nat -> Z * Z.
Variable strict_manifests strict_hash add_invalid : bool.
Variable srcs : list source.
Variable s : fs.
Hypothesis root : s [] = Some Dir.
Notation disk := (disk_of (run_sources srcs s)).
Hypothesis cache : octet_cache disk.
Notation x509 := (x509_cert all_versions keep points more).
Notation signed := (x509_signed all_versions keep sha256 other_sig excused).
Notation explored_all := (explored_all sha256 x509 strict signed crl_sig_ok dec_crl hex_sha1 disk synced clock
  strict_manifests strict_hash add_invalid).
Notation rests_from := (rests_from limit first_more second_more refuse_colons hex_sha1 cwd base all_versions keep sha256 other_sig excused disk (disk_of s) srcs).

Theorem C102_told_partial : forall xs tals filt names paths now dur L L', explored_all xs tals ->
  (forall q, In q xs -> plain_anchors disk (file_cert x509) q) -> generate_list filt names paths tals now dur = Ret L ->
  l_data L' = l_data L -> byte_list L' -> 2 + 2 * Z.of_nat (List.length (l_data L)) < 2 ^ 32 ->
  forall n v l, Z.of_nat n <= 10000 -> jdocument n v (output_text L') \/ jdocument n v (served_text L') -> reads_as v l ->
  exists ov, new_ov l = TOk ov /\
    forall rt ip p, prefix_is (rt_prefix rt) ip p -> exists m st, ov_validate ov rt = TOk (m, st, false) /\
      (st <> NotFound -> exists e asn, rests_from xs e asn /\ entry_covers e ip p) /\
      (st = Valid -> rt_asn rt <> 0 -> exists e, rests_from xs e (rt_asn rt) /\ entry_covers e ip p /\ p <= re_maxlen e).
Proof.
  exact (told_from limit first_more second_more refuse_colons cb_text bad_at failover hex_sha1 cwd base base_given sha256 sha_len
    all_versions keep points more other_sig excused strict crl_sig_ok dec_crl synced clock strict_manifests strict_hash add_invalid
    srcs s root cache).
Qed.
End Told.
End C102.
Print Assumptions C102_origin.
Print Assumptions C102_kept.
Print Assumptions C102_read.
Print Assumptions C102_arrives_partial.
Print Assumptions C102_arrives_delta_partial.
Print Assumptions C102_told_partial.

(** The certificate of a TAL over HTTP, its directory with rsync, in an empty
    cache: one entry is exported. *)
Example C102_example :
  n_base <> [] /\ n_start [] = Some Dir /\ octet_cache n_disk /\
  explored_all sha0 w_x509 false w_signed w_crl_signed (x509_crl w_no) (fun x => x) n_disk (fun _ => true) (fun _ => (e_now, e_now))
    true true false [n_expl] [n_roas] /\
  (forall q, In q [n_expl] -> plain_anchors n_disk (file_cert w_x509) q) /\
  exists L r, generate_list true [str "ta"] [str "t.tal"] [n_roas] 100 60 = Ret L /\ byte_list L /\
    l_data L = [r] /\ j_prefix r = str "10.1.0.0/16" /\ j_asn r = str "AS65000" /\ 2 + 2 * Z.of_nat (List.length (l_data L)) < 2 ^ 32.
Proof.
  split; [exact n_base_ok|]. split; [exact n_rooted|]. split; [exact n_cache|]. split; [exact n_all|]. split; [intros q [<-|[]]; exact n_anchors|].
  destruct (proj2 (proj2 n_found)) as (L & r & G & D & P & A). exists L, r. split; [exact G|]. split; [exact (n_bytes L G r D P A)|].
  split; [exact D|]. split; [exact P|]. split; [exact A|]. rewrite D. reflexivity.
Qed.

(** An update over RRDP: the object is read when its address is in the domain,
    else not. *)
Example C102_example_rrdp :
  disk_of n_cwd n_base (n_run [n_snap (str "rsync://h/")] n_start) (str "rsync://h/m/a.cer") = Some (str "hello") /\
  disk_of n_cwd n_base (n_run [n_snap (str "rsync://k/")] n_start) (str "rsync://h/m/a.cer") = None /\
  disk_of n_cwd n_base (n_run n_srcs n_start) (str "rsync://r/ta.cer") = Some w_root /\
  disk_of n_cwd n_base (n_run n_srcs n_start) (str "t.tal") = Some e_tal.
Proof. exact n_snapshots. Qed.

(** The conditions of [C102_arrives_partial] and of
    [C102_arrives_delta_partial]; nothing follows the element. *)
Example C102_example_snapshot :
  complete response_limit (w_doc o_notification) o_notification /\
  parse_root_octets no_more no_more false o_notification = XOk n_notif /\ plain_notif n_notif /\ plain_serial 0 /\
  needs_snapshot n_notif [] 0 /\ n_snapshot n_notif = str "https://r/snap.xml" /\
  (exists s' q, fetch_http response_limit no_more no_more false fs (octo_cb n_cwd n_base (str "rsync://h/")) n_texts (fun _ => 0)
     (w_web (w_doc o_snapshot) w_404) (str "https://r/n.xml") [] 0 n_start = (s', HDone (str "s") 9, q)) /\
  parse_node_octets no_more no_more false o_snapshot = XOk ([] ++ (str "rsync://" ++ str "h/m/a.cer", str "aGVsbG8=") :: [], []) /\
  b64_text (strip (str "aGVsbG8=")) (str "hello").
Proof. exact n_snapshot_case. Qed.
Example C102_example_delta :
  plain_serial 8 /\ ~ needs_snapshot n_notif (str "s") 8 /\ n_serial n_notif < 2 ^ 63 - 1 /\ 8 < 9 <= n_serial n_notif /\
  announces n_notif 9 (str "https://r/9.xml") /\
  (exists s' q, fetch_http response_limit no_more no_more false fs (octo_cb n_cwd n_base (str "rsync://h/")) n_texts (fun _ => 0)
     (w_web w_404 (w_doc w_delta)) (str "https://r/n.xml") (str "s") 8 n_start = (s', HDone (str "s") 9, q)) /\
  parse_node_octets no_more no_more false w_delta = XOk ([] ++ (str "rsync://" ++ str "h/m/a.cer", str "aGVsbG8=") :: [], []).
Proof. exact n_delta_case. Qed.
