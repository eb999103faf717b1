(** Downloads with their errors: the addresses asked, the pool, runs. *)
From Coq Require Import List ZArith Lia Bool String.
From Verif.Model Require Import Base Str Base64 Paths Cache Rrdp RrdpXml XmlLex RrdpHttp Pool.
From Verif.Spec Require Import RrdpSpec RrdpHttpSpec.
From Verif.Proofs Require Import StrProofs RrdpProofs XmlThm XmlLexRrdp XmlLexRun RrdpHttpProofs.
Import ListNotations.
Open Scope Z_scope.

Section Http.
Variable limit : Z.
Variables first_more second_more : Z -> bool.
Variable refuse_colons : bool.
Variable St : Type.
Variable cb : event -> St -> St * verdict.
Variable cb_text : event -> St -> bytes.
Variable bad_at : bytes -> Z.
Variable web : bytes -> answer.
Notation node := (node limit first_more second_more refuse_colons web).
Notation get_doc := (get_doc limit web).
Notation hdeliver_doc := (hdeliver_doc St cb cb_text bad_at).
Notation hdeltas := (hdeltas limit first_more second_more refuse_colons St cb cb_text bad_at web).
Notation hsnapshot := (hsnapshot limit first_more second_more refuse_colons St cb cb_text bad_at web).
Notation fetch_http := (fetch_http limit first_more second_more refuse_colons St cb cb_text bad_at web).
Notation parse_root_octets := (parse_root_octets first_more second_more refuse_colons).

Lemma hsnapshot_asks : forall n s s' r q, hsnapshot n s = (s', r, q) -> q = [n_snapshot n].
Proof.
  intros n s s' r q H. unfold RrdpHttp.hsnapshot in H. destruct (node (n_snapshot n)) as [d|e|]; [|injection H as _ _ <-; reflexivity..].
  match goal with H : context [hdeliver_doc ?m ?i d s] |- _ => destruct (hdeliver_doc m i d s) as [s1 [|t|]] end;
    injection H as _ _ <-; reflexivity.
Qed.
Lemma hdeltas_asks : forall fuel n last k s s' r q,
  int64 (n_serial n) -> int64 last -> last <= k -> k <= n_serial n \/ k = last ->
  hdeltas fuel n last (wrap64 (k + 1)) k s = (s', r, q) -> last < 2 ^ 63 - 1 -> n_serial n < 2 ^ 63 - 1 ->
  exists ks rest, serials k (n_serial n) = ks ++ rest /\ Forall2 (announces n) ks q.
Proof.
  induction fuel as [|f IH]; intros n last k s s' r q Hc Hl Hk Hb H Hm Hn; cbn [RrdpHttp.hdeltas] in H.
  - injection H as _ _ <-. exists [], (serials k (n_serial n)). split; [reflexivity|constructor].
  - assert (exists ks rest, serials k (n_serial n) = ks ++ rest /\ Forall2 (announces n) ks []) as Z0
      by (exists [], (serials k (n_serial n)); split; [reflexivity|constructor]).
    unfold int64 in *. rewrite wrap64_id in H by (unfold int64; lia).
    destruct (Z.leb_spec (k + 1) (n_serial n)) as [L|L]; cbn [andb] in H; [|injection H as _ _ <-; exact Z0].
    destruct (0 <? wrap64 (n_serial n - last)); [|injection H as _ _ <-; exact Z0].
    destruct (delta_at (n_deltas n) (k + 1)) as [u|] eqn:U; [|injection H as _ _ <-; exact Z0].
    apply delta_at_some in U.
    assert (exists ks rest, serials k (n_serial n) = ks ++ rest /\ Forall2 (announces n) ks [u]) as Z1.
    { rewrite serials_cons by lia. exists [k + 1], (serials (k + 1) (n_serial n)). split; [reflexivity|]. constructor; [exact U|constructor]. }
    destruct (node u) as [d|e|]; [|injection H as _ _ <-; exact Z1..].
    match goal with H : context [hdeliver_doc ?m ?i d s] |- _ => destruct (hdeliver_doc m i d s) as [s1 [|t|]] end;
      [|injection H as _ _ <-; exact Z1..].
    destruct (hdeltas f n last (wrap64 (k + 1 + 1)) (k + 1) s1) as [[s2 r2] q2] eqn:G. injection H as _ _ <-.
    apply IH in G; try lia. destruct G as (ks & rest & E & F).
    rewrite serials_cons by lia. exists (k + 1 :: ks), rest. rewrite E. split; [reflexivity|constructor; assumption].
Qed.

Theorem asks_root : forall path ls last s s' r q b n, complete limit (web path) b -> parse_root_octets b = XOk n ->
  plain_notif n -> plain_serial last -> fetch_http path ls last s = (s', r, q) -> asks n path ls last q.
Proof.
  intros path ls last s s' r q b n C P (Hc & Hk & Hn) Hs H. unfold RrdpHttp.fetch_http, RrdpHttp.get_doc in H.
  rewrite (proj2 (get_ok _ _ _) C), P in H. unfold asks.
  assert (Hl : int64 last) by (unfold plain_serial, int64 in *; lia).
  destruct (missing (S (S (List.length (n_deltas n)))) (n_deltas n) last (n_serial n)) as [m|] eqn:M;
    [|exfalso; exact (missing_total _ _ _ Hl Hn M)].
  destruct ((last =? 0) || negb (beq ls (n_session n)) || m) eqn:D.
  - destruct (hsnapshot n s) as [[a c] e] eqn:E. injection H as _ _ <-. left. split; [|f_equal; exact (hsnapshot_asks _ _ _ _ _ E)].
    apply orb_prop in D. destruct D as [D|D]; [apply orb_prop in D; destruct D as [D|D]|].
    + left. left. now apply Z.eqb_eq.
    + left. right. left. now apply session_test.
    + subst m. destruct (Z_lt_dec (n_serial n) (2 ^ 63 - 1)); [|right; unfold int64 in Hc; lia].
      left. right. right. apply missing_true in M; [|exact Hl|assumption].
      destruct M as (k & Hk' & Hz). exists k. split; [exact Hk'|]. rewrite delta_at_has. auto.
  - destruct (hdeltas _ n last (wrap64 (last + 1)) last s) as [[a c] e] eqn:E. injection H as _ _ <-.
    apply orb_false_elim in D. destruct D as [D ->]. apply orb_false_elim in D. destruct D as [D1 D2].
    apply missing_false in M; [|assumption|assumption]. destruct M as (B & Q). right. split.
    + intros [G|[G|(k & Gk & Gn)]].
      * apply Z.eqb_neq in D1. contradiction.
      * apply session_test in G. congruence.
      * apply Gn. rewrite delta_at_has. apply Q. exact Gk.
    + apply hdeltas_asks in E; try assumption; try lia; [|unfold plain_serial in Hs; lia].
      destruct E as (ks & rest & E & F). exists e, ks, rest. auto.
Qed.
Theorem asks_none : forall path ls last s s' r q, (forall b n, complete limit (web path) b -> parse_root_octets b <> XOk n) ->
  fetch_http path ls last s = (s', r, q) -> s' = s /\ q = [path] /\ exists e, r = HError e.
Proof.
  intros path ls last s s' r q N H. unfold RrdpHttp.fetch_http, RrdpHttp.get_doc in H.
  destruct (get_xml limit (web path)) as [b|e] eqn:G; [|injection H as <- <- <-; eauto].
  apply get_ok in G. pose proof (N b) as Nb. pose proof (proj2 (octets_end first_more second_more refuse_colons b)) as F.
  destruct (parse_root_octets b) as [n| |]; [now apply (Nb n) in G|injection H as <- <- <-; eauto|congruence].
Qed.
Theorem returns : forall path ls last s, (forall b n, complete limit (web path) b -> parse_root_octets b = XOk n -> plain_notif n) ->
  plain_serial last -> snd (fst (fetch_http path ls last s)) <> HFuel.
Proof.
  intros path ls last s N L.
  destruct (fetch_http path ls last s) as [[s' r] q] eqn:E. cbn [fst snd].
  set (get := fun u => match get_xml limit (web u) with inl b => Some b | inr _ => None end).
  assert (forall u b, get u = Some b <-> complete limit (web u) b) as G.
  { intros u b. unfold get. rewrite <- get_ok. destruct (get_xml limit (web u)); split; congruence. }
  pose proof (fetch_plain limit first_more second_more refuse_colons St cb cb_text bad_at web get G _ _ _ _ _ _ _ E) as P.
  intros ->. cbn [plain_end] in P. apply (f_equal snd) in P. cbn [snd] in P. revert P.
  unfold fetch_octets, fetch_xml. apply fetch_total; [|exact L].
  intros n R. unfold get_as in R. destruct (get path) as [b|] eqn:B; [|discriminate R]. cbn [option_map] in R.
  apply (N b n); [now apply G|]. unfold XmlLex.parse_root_octets. destruct (parse_root _) as [x| |]; [|discriminate R..].
  cbn [of_xres] in R. now injection R as <-.
Qed.

(** ** The pool *)
Theorem pool : forall failover path rsync ls last s s' r q a b sh,
  other_texts cb_text web -> fetch_http path ls last s = (s', r, q) ->
  (exists e, r = HError e) \/ r = HDone a b ->
  exists x, seen_as limit web r q x /\ exists ph, rwork failover (fun _ _ _ y => y = x) (path, rsync) (RFetch ls last) sh ph
    (mkRShared (match job_kept failover path rsync r with Some true => r_jobs sh | _ => kdel (r_jobs sh) rsync end)
       (r_info sh) (r_log sh ++ [((path, rsync), x)])).
Proof.
  intros failover path rsync ls last s s' r q a b sh [Q O] H R.
  pose proof (fetch_ends limit first_more second_more refuse_colons St cb cb_text bad_at web Q _ _ _ _ _ _ _ H) as E.
  pose proof (ends_kept limit web O r q failover path rsync E) as K.
  destruct R as [(e & ->)| ->].
  - destruct (ends_dec limit web O _ q E) as [D|D].
    + exists RTooLarge. split; [split; [eauto|exact D]|]. exists None.
      assert (job_kept failover path rsync (HError e) <> Some true) as N.
      { intros T. apply K in T. destruct T as (_ & _ & T). destruct D as (u & I & L). exact (T u I L). }
      destruct (job_kept failover path rsync (HError e)) as [[|]|]; [congruence| |]; now apply rw_large.
    + exists RFail. split; [split; [eauto|exact D]|]. exists None.
      assert (match job_kept failover path rsync (HError e) with Some true => r_jobs sh | _ => kdel (r_jobs sh) rsync end =
              (if failover then r_jobs sh else kdel (r_jobs sh) rsync)) as ->.
      { destruct failover; [rewrite (proj2 K) by eauto; reflexivity|reflexivity]. }
      now apply (rw_fail failover (fun _ _ _ y => y = RFail) (path, rsync) ls last sh).
  - exists (ROk a b). split; [reflexivity|]. exists (Some (RStore a b)). cbn [job_kept]. now apply rw_ok.
Qed.
End Http.

Theorem octo_quiet : forall quoted cause, octo_text quoted cause <> too_large.
Proof. intros. exact (start_other 85 (str "nable to write sync file ") _ ltac:(discriminate)). Qed.

(** ** Runs *)
Definition w_404 : answer := Response 404 (str "not found") None.
Definition w_doc (body : bytes) : answer := Response 200 body None.
Definition w_web (snap delta : answer) (u : bytes) : answer :=
  if beq u (str "https://r/n.xml") then w_doc o_notification
  else if beq u (str "https://r/snap.xml") then snap
  else if beq u (str "https://r/9.xml") then delta
  else NoResponse (str "refused").
Definition w_texts (e : event) (s : list event) : bytes := octo_text (e_path e) (str "no space").
Definition w_fetch (limit : Z) (w : bytes -> answer) (ls : bytes) (last : Z) : list event * hres * list bytes :=
  fetch_http limit no_more no_more false (list event) x_record w_texts (fun _ => 0) w (str "https://r/n.xml") ls last [].
Definition w_delta : bytes := str "<delta session_id='s' serial='9'><publish uri='rsync://h/m/a.cer'>aGVsbG8=</publish></delta>".
Definition w_limit : Z := Z.of_nat (List.length o_notification).

Lemma w_other : forall snap delta, (forall code body, snap <> Response code body (Some too_large)) ->
  (forall code body, delta <> Response code body (Some too_large)) -> other_texts w_texts (w_web snap delta).
Proof.
  intros snap delta A B. split; [intros e s; apply octo_quiet|]. intros u code body. unfold w_web, w_doc.
  destruct (beq u _); [discriminate|]. destruct (beq u _); [apply A|]. destruct (beq u _); [apply B|discriminate].
Qed.
(** A notification of exactly the limit and a snapshot; a snapshot that is too
    large; a delta that is not there although the snapshot is. *)
Lemma w_runs :
  w_fetch w_limit (w_web (w_doc o_snapshot) w_404) [] 0 =
    ([mkEvent (str "https://r/snap.xml") (str "rsync://h/m/a.cer") (str "hello") false true 9], HDone (str "s") 9,
     [str "https://r/n.xml"; str "https://r/snap.xml"]) /\
  w_fetch w_limit (w_web (w_doc (o_snapshot ++ o_notification)) w_404) [] 0 =
    ([], HError (FPlain too_large), [str "https://r/n.xml"; str "https://r/snap.xml"]) /\
  w_fetch w_limit (w_web (w_doc o_snapshot) w_404) (str "s") 8 =
    ([], HError (FFetch (str "status is 404")), [str "https://r/n.xml"; str "https://r/9.xml"]) /\
  w_fetch w_limit (w_web (w_doc o_snapshot) (w_doc w_delta)) (str "s") 8 =
    ([mkEvent (str "https://r/snap.xml") (str "rsync://h/m/a.cer") (str "hello") false false 9], HDone (str "s") 9,
     [str "https://r/n.xml"; str "https://r/9.xml"]) /\
  w_fetch w_limit (w_web (w_doc o_snapshot) (Response 200 w_delta (Some (str "unexpected EOF")))) (str "s") 8 =
    ([], HError (FPlain (str "unexpected EOF")), [str "https://r/n.xml"; str "https://r/9.xml"]).
Proof. split; [|split; [|split; [|split]]]; vm_compute; reflexivity. Qed.
Lemma w_kept :
  job_kept true (str "https://r/n.xml") (str "rsync://h/m/") (HError (FPlain too_large)) = Some false /\
  job_kept true (str "https://r/n.xml") (str "rsync://h/m/") (HError (FFetch (str "status is 404"))) = Some true /\
  job_kept true (str "https://r/n.xml") (str "rsync://h/m/") (HError (FFetch too_large)) = Some true /\
  job_kept false (str "https://r/n.xml") (str "rsync://h/m/") (HError (FFetch (str "status is 404"))) = Some false /\
  error_text (str "https://r/n.xml") (str "rsync://h/m/") (FFetch (str "status is 404")) =
    str "error fetching for repo rrdp:https://r/n.xml (rsync:rsync://h/m/): status is 404".
Proof. split; [|split; [|split; [|split]]]; vm_compute; reflexivity. Qed.
Lemma w_large : oversized w_limit (w_doc (o_snapshot ++ o_notification)).
Proof. exists (o_snapshot ++ o_notification), None. split; [reflexivity|]. unfold w_limit. rewrite app_length, Nat2Z.inj_add.
  assert (0 < Z.of_nat (List.length o_snapshot)) by (vm_compute; reflexivity). lia. Qed.

(** Without a limit *)
Theorem tal_unlimited : forall n uri status, exists a body,
  get_http uri status a = inl body /\ List.length body = n.
Proof. intros n uri status. exists (Response 200 (repeat 0 n) None), (repeat 0 n). split; [reflexivity|apply repeat_length]. Qed.
Theorem texts : forall path rsync t,
  error_text path rsync (FPlain t) = t /\
  error_text [] rsync (FFetch t) = str "error fetching for repo: " ++ t /\
  (path <> [] -> error_text path rsync (FFetch t) = str "error fetching for repo rrdp:" ++ path ++ str " (rsync:" ++ rsync ++ str "): " ++ t).
Proof.
  intros path rsync t. split; [reflexivity|]. split; [reflexivity|]. intros N. destruct path as [|b p]; [congruence|].
  unfold error_text. rewrite <- !app_assoc. reflexivity.
Qed.
Theorem tal_body : forall uri status a body, get_http uri status a = inl body <-> a = Response 200 body None.
Proof.
  intros uri status a body. unfold get_http. split; [|intros ->; reflexivity].
  destruct a as [t|t|code b fails]; try discriminate.
  destruct (Z.eqb_spec code 200) as [->|]; [|discriminate]. destruct fails; [discriminate|]. intros H. now injection H as <-.
Qed.
