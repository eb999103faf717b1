(** From a snapshot to what the validator reads, and from what a consumer is
    told to the sources of the octets. *)
From Coq Require Import List ZArith Lia Bool String.
From Verif.Model Require Import Base Str Base64 NetIP CertRes Roa Ber Asn1 GoTime Der Tal Validator Explore ObjDer TalText TalDer FileDecoders NetText Json Output StateFile Patricia Ov X509 Paths Cache Rrdp RrdpXml XmlLex RrdpHttp Pool Octo NetCache.
From Verif.Spec Require Import Addr Resources Bits Canon IpExtSpec ContentSpec SignedSpec Trust Discovery CtSpec OutputSpec OvSpec EndSpec JsonSpec StateSpec X509Spec ChainSpec VerdictSpec B64 PathSpec RrdpSpec RrdpHttpSpec NetCacheSpec.
From Verif.Proofs Require Import StrProofs RrdpProofs RrdpWitness PathProofs CacheProofs CacheThm CacheEvents XmlLexRrdp RrdpHttpProofs RrdpHttpThm EndThm VerdictThm NetCacheProofs.
Import ListNotations.
Open Scope Z_scope.

Section Net.
Variable limit : Z.
Variables first_more second_more : Z -> bool.
Variable refuse_colons : bool.
Variable cb_text : event -> fs -> bytes.
Variable bad_at : bytes -> Z.
Variable failover : bool.
Variable hex_sha1 : bytes -> bytes.
Variable cwd : loc.
Variable base : bytes.
Hypothesis Hbase : base <> [].
Notation disk_of := (disk_of cwd base).
Notation run_sources := (run_sources limit first_more second_more refuse_colons cb_text bad_at failover hex_sha1 cwd base).
Notation delivers := (delivers limit first_more second_more refuse_colons hex_sha1 cwd base).
Notation parse_root_octets := (parse_root_octets first_more second_more refuse_colons).
Notation parse_node_octets := (parse_node_octets first_more second_more refuse_colons).

(** What a document is read as *)
Definition got_at (web : bytes -> answer) (u : bytes) : option bytes := match get_xml limit (web u) with inl b => Some b | inr _ => None end.
Definition doc_at (web : bytes -> answer) : bytes -> option doc :=
  get_as parse_node (fun u => option_map (xml_tokens first_more second_more refuse_colons) (got_at web u)).
Lemma got_at_iff : forall web u b, got_at web u = Some b <-> complete limit (web u) b.
Proof.
  intros web u x. rewrite <- get_ok. unfold got_at. destruct (get_xml limit (web u)); split; intros K; (now injection K as ->) || discriminate K.
Qed.
Lemma doc_at_iff : forall web u x, doc_at web u = Some x <-> exists b, complete limit (web u) b /\ parse_node_octets b = XOk x.
Proof.
  intros web u x. unfold doc_at, get_as, XmlLex.parse_node_octets. split.
  - destruct (got_at web u) as [b|] eqn:G; cbn [option_map]; [|discriminate]. apply got_at_iff in G. intros E. exists b. split; [exact G|].
    destruct (parse_node _) as [y| |]; cbn [of_xres] in E; [|discriminate E..]. injection E as ->. reflexivity.
  - intros (b & C & E). rewrite (proj2 (got_at_iff _ _ _) C). cbn [option_map]. rewrite E. reflexivity.
Qed.
Lemma done_events : forall domain web path ls last s s' a b q body n,
  complete limit (web path) body -> parse_root_octets body = XOk n -> plain_notif n -> plain_serial last ->
  fetch_http limit first_more second_more refuse_colons fs (octo_cb cwd base domain) cb_text bad_at web path ls last s = (s', HDone a b, q) ->
  exists es, plays (octo_cb cwd base domain) s es s' /\
    (snapshot_events n (doc_at web) es /\ (needs_snapshot n ls last \/ n_serial n = 2 ^ 63 - 1) \/
     ~ needs_snapshot n ls last /\ update_events n (fun _ => doc_at web) last es).
Proof.
  intros domain web path ls last s s' a b q body n C P Pn Pl H.
  apply (fetch_plain limit first_more second_more refuse_colons fs _ cb_text bad_at web (got_at web) (got_at_iff web)) in H. cbn [plain_end] in H.
  unfold fetch_octets, fetch_xml in H. unfold get_as at 3 in H.
  rewrite (proj2 (got_at_iff _ _ _) C) in H. cbn [option_map] in H. unfold XmlLex.parse_root_octets in P. rewrite P in H. cbn [of_xres] in H.
  apply fetch_done in H; [|exact Pn|exact Pl]. destruct H as (es & Py & _ & [(S & _ & X)|(X & U & _)]); exists es; split; auto.
Qed.
Theorem arrives : forall domain web path ls last s s' a b q body n sbody p1 t p2 w f d,
  rooted_fs s -> complete limit (web path) body -> parse_root_octets body = XOk n -> plain_notif n -> plain_serial last ->
  needs_snapshot n ls last ->
  fetch_http limit first_more second_more refuse_colons fs (octo_cb cwd base domain) cb_text bad_at web path ls last s = (s', HDone a b, q) ->
  complete limit (web (n_snapshot n)) sbody -> parse_node_octets sbody = XOk (p1 ++ (rsync_scheme ++ f, t) :: p2, w) ->
  contains (rsync_scheme ++ f) domain = true -> contains f rsync_scheme = false -> b64_text (strip t) d ->
  (forall a' t' f', In (a', t') (p2 ++ w) -> a' = rsync_scheme ++ f' -> resolve cwd (path_join base f') <> resolve cwd (path_join base f)) ->
  disk_of s' (rsync_scheme ++ f) = Some d.
Proof.
  intros domain web path ls last s s' a b q body n sbody p1 t p2 w f d R C P Pn Pl Ns H C2 P2 Cd Cf T N.
  destruct (done_events domain web path ls last s s' a b q body n C P Pn Pl H) as (es & Py & [(S & _)|(X & _)]); [|contradiction].
  destruct S as (dd & S & D). rewrite (proj2 (doc_at_iff _ _ _) (ex_intro _ sbody (conj C2 P2))) in S. injection S as <-.
  rewrite <- (app_nil_r es) in Py.
  pose proof (doc_arrives cwd base Hbase _ _ _ domain p1 _ t p2 w es [] s s' f d R Py D eq_refl Cd T N ltac:(intros e f' [])) as K.
  unfold NetCache.disk_of. rewrite (read_place cwd base Hbase f Cf), K. reflexivity.
Qed.
Theorem arrives_delta : forall domain web path ls last s s' a b q body n k u dbody p1 t p2 w f d,
  rooted_fs s -> complete limit (web path) body -> parse_root_octets body = XOk n -> plain_notif n -> plain_serial last ->
  ~ needs_snapshot n ls last -> n_serial n < 2 ^ 63 - 1 ->
  fetch_http limit first_more second_more refuse_colons fs (octo_cb cwd base domain) cb_text bad_at web path ls last s = (s', HDone a b, q) ->
  last < k <= n_serial n -> announces n k u ->
  complete limit (web u) dbody -> parse_node_octets dbody = XOk (p1 ++ (rsync_scheme ++ f, t) :: p2, w) ->
  contains (rsync_scheme ++ f) domain = true -> contains f rsync_scheme = false -> b64_text (strip t) d ->
  (forall a' t' f', In (a', t') (p2 ++ w) -> a' = rsync_scheme ++ f' -> resolve cwd (path_join base f') <> resolve cwd (path_join base f)) ->
  (forall k' u' b' p' w' a' t' f', k < k' <= n_serial n -> announces n k' u' -> complete limit (web u') b' ->
     parse_node_octets b' = XOk (p', w') -> In (a', t') (p' ++ w') ->
     a' = rsync_scheme ++ f' -> resolve cwd (path_join base f') <> resolve cwd (path_join base f)) ->
  disk_of s' (rsync_scheme ++ f) = Some d.
Proof.
  intros domain web path ls last s s' a b q body n k u dbody p1 t p2 w f d R C P Pn Pl Ns Hm H Hk A C2 P2 Cd Cf T N N2.
  destruct (done_events domain web path ls last s s' a b q body n C P Pn Pl H) as (es & Py & [(_ & [X|X])|(_ & U)]); [contradiction|lia|].
  assert (K : s' (resolve cwd (path_join base f)) = Some (File d)).
  { refine (update_arrives cwd base Hbase n _ last k u domain p1 _ t p2 w es s s' f d R Py U Hk _ _ eq_refl Cd T N _).
    - intros v A'. apply announces_at in A, A'. congruence.
    - apply doc_at_iff. eauto.
    - intros k' u' [p' w'] a' t' f' Hk' A' D I E. apply doc_at_iff in D. destruct D as (b' & C' & P').
      exact (N2 k' u' b' p' w' a' t' f' Hk' A' C' P' I E). }
  unfold NetCache.disk_of. rewrite (read_place cwd base Hbase f Cf), K. reflexivity.
Qed.

Section Told.
Variable sha256 : bytes -> bytes.
Hypothesis sha_len : forall x, List.length (sha256 x) = 32%nat.
Variable all_versions keep : bool.
Variable points : list extension -> list bytes.
Variable more : bytes -> bool.
Variable other_sig : list Z * bytes -> bytes -> bytes -> bytes -> bool.
Variable excused : bytes -> bool.
Variable strict : bool.
Variable crl_sig_ok : cert -> crl -> bool.
Variable dec_crl : bytes -> option crl.
Variable synced : bytes -> bool.
Variable clock : nat -> Z * Z.
Variable strict_manifests strict_hash add_invalid : bool.
Variable srcs : list source.
Variable s : fs.
Hypothesis Hs : rooted_fs s.
Notation disk := (disk_of (run_sources srcs s)).
Hypothesis cache : octet_cache disk.
Notation x509 := (x509_cert all_versions keep points more).
Notation signed := (x509_signed all_versions keep sha256 other_sig excused).
Notation explored_all := (explored_all sha256 x509 strict signed crl_sig_ok dec_crl hex_sha1 disk synced clock
  strict_manifests strict_hash add_invalid).
Notation rests := (rests all_versions keep sha256 other_sig excused hex_sha1 disk).
Notation rests_from := (rests_from limit first_more second_more refuse_colons hex_sha1 cwd base all_versions keep sha256 other_sig excused disk (disk_of s) srcs).

Lemma rests_origin : forall xs e asn, rests xs e asn -> rests_from xs e asn.
Proof using Hbase Hs.
  intros xs e asn (q & f & raw & d & entries & Iq & If & Tf & Hf & Cf & Ie).
  exists q, f, raw, d, entries. repeat (split; [assumption|]).
  exact (disk_origin limit first_more second_more refuse_colons cb_text bad_at failover hex_sha1 cwd base Hbase srcs s _ raw Hs (proj1 Hf)).
Qed.
Theorem told_from : forall xs tals filt names paths now dur L L', explored_all xs tals ->
  (forall q, In q xs -> plain_anchors disk (file_cert x509) q) -> generate_list filt names paths tals now dur = Ret L ->
  l_data L' = l_data L -> byte_list L' -> 2 + 2 * Z.of_nat (List.length (l_data L)) < 2 ^ 32 ->
  forall n v l, Z.of_nat n <= 10000 -> jdocument n v (output_text L') \/ jdocument n v (served_text L') -> reads_as v l ->
  exists ov, new_ov l = TOk ov /\
    forall rt ip p, prefix_is (rt_prefix rt) ip p -> exists m st, ov_validate ov rt = TOk (m, st, false) /\
      (st <> NotFound -> exists e asn, rests_from xs e asn /\ entry_covers e ip p) /\
      (st = Valid -> rt_asn rt <> 0 -> exists e, rests_from xs e (rt_asn rt) /\ entry_covers e ip p /\ p <= re_maxlen e).
Proof using All.
  intros xs tals filt names paths now dur L L' X PA G EL B BD n v l Hn J Rd.
  destruct (told sha256 sha_len all_versions keep points more other_sig excused strict crl_sig_ok dec_crl hex_sha1 disk synced clock
    strict_manifests strict_hash add_invalid cache xs tals filt names paths now dur L L' X PA G EL B BD) as [_ T].
  destruct (T n v l Hn J Rd) as (ov & O & V). exists ov. split; [exact O|]. intros rt ip p Pr.
  destruct (V rt ip p Pr) as (m & st & E & V1 & V2). exists m, st. split; [exact E|]. split.
  - intros K. destruct (V1 K) as (e & asn & Re & Ce). exists e, asn. split; [exact (rests_origin _ _ _ Re)|exact Ce].
  - intros K1 K2. destruct (V2 K1 K2) as (e & Re & Ce). exists e. split; [exact (rests_origin _ _ _ Re)|exact Ce].
Qed.
End Told.
End Net.
