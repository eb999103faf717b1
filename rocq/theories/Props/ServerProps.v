(** C97: what clients of the server get. *)
From Coq Require Import List ZArith Lia Bool String.
From Verif.Model Require Import Base Str NetIP CertRes Roa Ber Asn1 GoTime Der Tal Validator Explore ObjDer TalText TalDer FileDecoders NetText Json Output StateFile Patricia Ov X509 Octo Server.
From Verif.Spec Require Import Addr Resources Bits Canon IpExtSpec ContentSpec SignedSpec Trust Discovery CtSpec OutputSpec OvSpec EndSpec JsonSpec StateSpec X509Spec ChainSpec VerdictSpec OctoSpec ServerSpec.
From Verif.Proofs Require Import EndThm VerdictThm ServerProofs.
Import ListNotations.
Open Scope Z_scope.

(** C97. Whatever the validations find and make, whenever a request is
    answered: a list that is given is the one made by the last validation that
    is complete, or nothing was validated yet and the server does not wait.  With
    -output.wait a validation was declared stable before. *)
Theorem C97_given_partial : forall sha256 c ps a b t e l, during (server_run c ps) a b ->
  answer_roas sha256 c (srv_after a) (srv_after (a ++ b)) t = Content e l ->
  e = etag sha256 l /\
  ((made (a ++ b) = [] /\ l = new_list /\ l_wait c = false) \/ exists k, of_last ps (a ++ b) k l) /\
  (l_wait c = true -> earlier_stable c (firstn (List.length (made a)) (map fst ps))).
Proof. exact given. Qed.
Print Assumptions C97_given_partial.

(** If no two lists are made in one second, a client that presents the tag of
    what it holds has the list of the last validation after each request that is
    not refused. *)
Theorem C97_client_partial : forall sha256 : bytes -> bytes,
  (forall x, bytes_ok (sha256 x) = true) -> (forall x y, sha256 x = sha256 y -> x = y) ->
  forall c ps held a b, seconds_apart ps -> client sha256 c (server_run c ps) held -> during (server_run c ps) a b ->
  let ans := answer_roas sha256 c (srv_after a) (srv_after (a ++ b)) (tag_held held) in
  ans <> Unavailable -> exists t l, keeps held ans = Some (t, l) /\
    ((made (a ++ b) = [] /\ l = new_list) \/ exists k, of_last ps (a ++ b) k l).
Proof. exact up_to_date. Qed.
Print Assumptions C97_client_partial.

(** What one-off mode writes is the list of the last validation. *)
Theorem C97_written : forall c ps a b, server_run c ps = a ++ SOutput :: b -> exists k, of_last ps a k (sv_list (srv_after a)).
Proof. exact written. Qed.
Print Assumptions C97_written.

Section Told.
Variable sha256 : bytes -> bytes.
Hypothesis sha_len : forall x, List.length (sha256 x) = 32%nat.
Variable all_versions keep : bool.
Variable points : list extension -> list bytes.
Variable more : bytes -> bool.
Variable other_sig : list Z * bytes -> bytes -> bytes -> bytes -> bool.
Variable excused : bytes -> bool.
Variable strict : bool.
Variable crl_sig_ok : cert -> crl -> bool.
Variable dec_crl : bytes -> option crl.
Variable hex_sha1 : bytes -> bytes.
Variable strict_manifests strict_hash add_invalid : bool.
(** The cache, the directories synchronised and the clock during each
    validation. *)
Variable disk : nat -> bytes -> option bytes.
Variable synced : nat -> bytes -> bool.
Variable clock : nat -> nat -> Z * Z.
Hypothesis cache : forall k, octet_cache (disk k).
Notation x509 := (x509_cert all_versions keep points more).
Notation signed := (x509_signed all_versions keep sha256 other_sig excused).
Notation dec_cert := (file_cert x509).
Notation explored_all k := (explored_all sha256 x509 strict signed crl_sig_ok dec_crl hex_sha1 (disk k) (synced k) (clock k)
  strict_manifests strict_hash add_invalid).
Notation rests k := (rests all_versions keep sha256 other_sig excused hex_sha1 (disk k)).

(** Let validation [k] explore the cache [disk k] below plain anchors.  Then
    whatever was validated and served before, and whatever was in the cache
    then: who asks and reads the list is told about routes only what rests on
    the octets that were in the cache during the last complete validation. *)
Theorem C97_told_partial : forall c ps (xs : nat -> list exploration) filt names paths now dur,
  (forall k f l, nth_error ps k = Some (f, l) -> exists tals g, explored_all k (xs k) tals /\
     (forall q, In q (xs k) -> plain_anchors (disk k) dec_cert q) /\ generate_list filt names paths tals (now k) dur = Ret g /\
     l_data l = l_data g /\ byte_list l /\ 2 + 2 * Z.of_nat (List.length (l_data g)) < 2 ^ 32) ->
  forall a b t e l, during (server_run c ps) a b -> l_wait c = true \/ made (a ++ b) <> [] ->
  answer_roas sha256 c (srv_after a) (srv_after (a ++ b)) t = Content e l ->
  exists k, of_last ps (a ++ b) k l /\
    (exists v es, jdocument 3 v (served_text l) /\ reads_as v es) /\
    forall n v es, Z.of_nat n <= 10000 -> jdocument n v (served_text l) -> reads_as v es ->
    exists ov, new_ov es = TOk ov /\
      forall rt ip p, prefix_is (rt_prefix rt) ip p -> exists m st, ov_validate ov rt = TOk (m, st, false) /\
        (st <> NotFound -> exists e asn, rests k (xs k) e asn /\ entry_covers e ip p) /\
        (st = Valid -> rt_asn rt <> 0 -> exists e, rests k (xs k) e (rt_asn rt) /\ entry_covers e ip p /\ p <= re_maxlen e).
Proof.
  intros c ps xs filt names paths now dur H a b t e l D W A.
  destruct (given sha256 c ps a b t e l D A) as (_ & [(M & _ & N)|(k & K)] & _).
  - exfalso. destruct W as [W|W]; [rewrite W in N; discriminate N|exact (W M)].
  - exists k. split; [exact K|]. destruct K as (_ & f & K). destruct (H k f l K) as (tals & g & X & P & G & E & B & S).
    destruct (told sha256 sha_len all_versions keep points more other_sig excused strict crl_sig_ok dec_crl hex_sha1 (disk k) (synced k)
      (clock k) strict_manifests strict_hash add_invalid (cache k) (xs k) tals filt names paths (now k) dur g l X P G E B S)
      as ((v & es & _ & J & R) & T).
    split; [exists v, es; auto|]. intros n v' es' N J' R'. exact (T n v' es' N (or_intror J') R').
Qed.
End Told.
Print Assumptions C97_told_partial.

(** "With -output.wait a list that is given comes from a validation that found
    nothing new" is wrong: once a state was stable, the list of a validation
    that meets new repositories is given too. *)
Theorem C97_incomplete_refuted : forall sha256 c ps p tr s, loop_run c (map fst ps) lstart = (tr, false, s) ->
  l_wait c = true -> l_hasprev s = true -> ~ quiet (map fst ps) (fst p) ->
  exists a b, server_run c (ps ++ [p]) = a ++ b /\ of_last (ps ++ [p]) a (List.length ps) (snd p) /\
    answer_roas sha256 c (srv_after a) (srv_after a) [] = Content (etag sha256 (snd p)) (snd p).
Proof. exact incomplete. Qed.
Print Assumptions C97_incomplete_refuted.

(** A server that does not wait gives an empty list before anything is
    validated: every route is unknown to its clients. *)
Theorem C97_empty_refuted : forall sha256 c ps, l_wait c = false -> during (server_run c ps) [] [] /\
  answer_roas sha256 c (srv_after []) (srv_after []) [] = Content (etag sha256 new_list) new_list /\
  l_data new_list = [].
Proof.
  intros sha256 c ps W. split; [exists (server_run c ps); reflexivity|]. split; [|reflexivity].
  unfold answer_roas, serve_roas. rewrite W. reflexivity.
Qed.
Print Assumptions C97_empty_refuted.

Definition list1 (t : Z) (p : string) : roalist := mkList (mkMeta 1 t (t + 60) [] []) [mkJ (str p) 24 (str "AS1") (str "ta")].

(** Two lists of one second: the client keeps the first. *)
Theorem C97_stale_refuted : forall sha256 : bytes -> bytes, (forall x, sha256 x <> []) ->
  exists c ps a b held l, l_wait c = true /\ client sha256 c (server_run c ps) held /\ during (server_run c ps) a b /\
  let ans := answer_roas sha256 c (srv_after a) (srv_after (a ++ b)) (tag_held held) in
  ans <> Unavailable /\ of_last ps (a ++ b) 2 l /\ forall t l', keeps held ans = Some (t, l') -> l_data l' <> l_data l.
Proof.
  intros sha256 N.
  set (c := mkLcfg true false 32). set (m := [[97]]).
  set (l1 := list1 100 "10.0.0.0/24"). set (l2 := list1 100 "10.1.0.0/24").
  set (ps := [(m, l1); (m, l1); (m, l2)]).
  assert (R : server_run c ps = firstn 9 (server_run c ps) ++ [] ++ skipn 9 (server_run c ps)) by (cbn [app]; symmetry; apply firstn_skipn).
  assert (R2 : server_run c ps = firstn 13 (server_run c ps) ++ [] ++ skipn 13 (server_run c ps)) by (cbn [app]; symmetry; apply firstn_skipn).
  set (a1 := firstn 9 (server_run c ps)) in *. set (a2 := firstn 13 (server_run c ps)) in *.
  set (h := keeps None (answer_roas sha256 c (srv_after a1) (srv_after (a1 ++ [])) (tag_held None))).
  assert (H : h = Some (etag sha256 l1, l1)) by reflexivity.
  assert (A : answer_roas sha256 c (srv_after a2) (srv_after (a2 ++ [])) (tag_held h) = NotModified).
  { rewrite H. cbn [tag_held]. unfold answer_roas. apply ListProofs.not_modified_iff. split; [auto|].
    split; [|reflexivity]. unfold etag. intros Z. match type of Z with hexs (sha256 ?x) = [] => specialize (N x); destruct (sha256 x) end; [now apply N|discriminate Z]. }
  exists c, ps, a2, [], h, l2. split; [reflexivity|]. split; [apply client_asks; [constructor|exists (skipn 9 (server_run c ps)); exact R]|].
  split; [exists (skipn 13 (server_run c ps)); exact R2|]. cbv zeta. rewrite A. split; [discriminate|].
  split; [split; [reflexivity|exists m; reflexivity]|].
  intros t l'. rewrite H. cbn [keeps]. intros E. injection E as _ <-. discriminate.
Qed.
Print Assumptions C97_stale_refuted.

(** A run with three validations: refused at first, then the second list, then
    the third, which is also what a client with the second one gets. *)
Example C97_example : forall sha256 : bytes -> bytes,
  let c := mkLcfg true false 32 in
  let m := [[97]] in
  let l k := list1 (100 + k) "10.0.0.0/24" in
  let ps := [(m, l 1); (m, l 2); (m, l 3)] in
  let evs := server_run c ps in
  seconds_apart ps /\
  answer_roas sha256 c (srv_after (firstn 5 evs)) (srv_after (firstn 5 evs)) [] = Unavailable /\
  answer_roas sha256 c (srv_after (firstn 9 evs)) (srv_after (firstn 9 evs)) [] = Content (etag sha256 (l 2)) (l 2) /\
  answer_roas sha256 c (srv_after (firstn 9 evs)) (srv_after (firstn 13 evs)) [] = Content (etag sha256 (l 3)) (l 3) /\
  made (firstn 13 evs) = [l 1; l 2; l 3].
Proof.
  intros sha256. cbv zeta. split.
  - unfold seconds_apart. cbn. repeat constructor; cbn; intuition discriminate.
  - repeat split; reflexivity.
Qed.

(** The hypotheses of [C97_incomplete_refuted] after two validations. *)
Example C97_incomplete_example :
  let c := mkLcfg true false 32 in
  let m := [[97]] in
  exists tr s, loop_run c (map fst [(m, new_list); (m, new_list)]) lstart = (tr, false, s) /\ l_hasprev s = true /\ ~ quiet [m; m] [[98]].
Proof.
  cbv zeta. eexists. eexists. split; [reflexivity|]. split; [reflexivity|].
  intros (_ & H). destruct (H [98] (or_introl eq_refl)) as (f & [<-|[<-|[]]] & [X|[]]); discriminate X.
Qed.
