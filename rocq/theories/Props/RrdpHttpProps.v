(** C101: what a failed or oversized download over RRDP leads to. *)
From Coq Require Import List ZArith String Lia.
From Verif.Model Require Import Base Str Base64 Paths Cache Rrdp RrdpXml XmlLex RrdpHttp Pool.
From Verif.Spec Require Import RrdpSpec RrdpHttpSpec.
From Verif.Proofs Require Import StrProofs XmlThm XmlLexRun RrdpHttpProofs RrdpHttpThm.
Import ListNotations.
Open Scope Z_scope.

(** C101. A document is used exactly when it arrived completely with status 200
    and is not longer than 1000000000 octets. *)
Theorem C101_download : forall a body, get_xml response_limit a = inl body <->
  a = Response 200 body None /\ Z.of_nat (List.length body) <= 1000000000.
Proof. exact (get_ok response_limit). Qed.

Section C101.
  Variable limit : Z.
  Variables first_more second_more : Z -> bool.
  Variable refuse_colons : bool.
  Variable St : Type.
  Variable cb : event -> St -> St * verdict.
  Variable cb_text : event -> St -> bytes.
  Variable bad_at : bytes -> Z.
  Notation fetch_http := (fetch_http limit first_more second_more refuse_colons St cb cb_text bad_at).
  Notation fetch_octets := (fetch_octets first_more second_more refuse_colons).
  Notation parse_root_octets := (parse_root_octets first_more second_more refuse_colons).

  (** The update is the one of C99 on the documents that arrived completely
      within the limit; any other download is a failed one. *)
  Theorem C101_documents : forall web get, (forall u b, get u = Some b <-> complete limit (web u) b) ->
    forall path ls last s s' r q, fetch_http web path ls last s = (s', r, q) ->
    fetch_octets cb get path ls last s =
      (s', match r with HDone a b => Done a b | HError _ => Failed | HExited => Exited | HFuel => OutOfFuel end).
  Proof. exact (fetch_plain limit first_more second_more refuse_colons St cb cb_text bad_at). Qed.

  (** Of a response nothing after the first octet beyond the limit matters, and
      nothing of the body of a response with another status. *)
  Theorem C101_bounded : forall web path ls last s, 0 <= limit ->
    fetch_http (fun u => needed limit (web u)) path ls last s = fetch_http web path ls last s.
  Proof. exact (fetch_needed limit first_more second_more refuse_colons St cb cb_text bad_at). Qed.

  (** A response that is too large ends the update: it is the last one asked,
      everything asked before arrived completely. *)
  Theorem C101_large_last : forall web path ls last s s' r q u, other_texts cb_text web ->
    fetch_http web path ls last s = (s', r, q) -> In u q -> oversized limit (web u) ->
    exists q0, q = q0 ++ [u] /\ forall v, In v q0 -> exists b, complete limit (web v) b.
  Proof.
    intros web path ls last s s' r q u [Q _] H.
    exact (ends_last limit web r q u (fetch_ends limit first_more second_more refuse_colons St cb cb_text bad_at web Q _ _ _ _ _ _ _ H)).
  Qed.

  (** The text that octorpki compares with is the text of the error exactly
      when one of the responses was too large. *)
  Theorem C101_large_text : forall web path rsync ls last s s' r q, other_texts cb_text web ->
    fetch_http web path ls last s = (s', r, q) ->
    ((exists e, r = HError e /\ error_text path rsync e = str "http: request body too large") <->
     exists u, In u q /\ oversized limit (web u)).
  Proof.
    intros web path rsync ls last s s' r q [Q O] H.
    exact (ends_large limit web O r q path rsync (fetch_ends limit first_more second_more refuse_colons St cb cb_text bad_at web Q _ _ _ _ _ _ _ H)).
  Qed.

  (** The rsync job stays exactly when there is an error, the failover is on
      and no response was too large. *)
  Theorem C101_failover : forall web failover path rsync ls last s s' r q, other_texts cb_text web ->
    fetch_http web path ls last s = (s', r, q) ->
    (job_kept failover path rsync r = Some true <->
     failover = true /\ (exists e, r = HError e) /\ forall u, In u q -> ~ oversized limit (web u)).
  Proof.
    intros web failover path rsync ls last s s' r q [Q O] H.
    exact (ends_kept limit web O r q failover path rsync (fetch_ends limit first_more second_more refuse_colons St cb cb_text bad_at web Q _ _ _ _ _ _ _ H)).
  Qed.

  (** It is the step of the pool of C39 for the result of the fetch. *)
  Theorem C101_pool : forall web failover path rsync ls last s s' r q a b sh, other_texts cb_text web ->
    fetch_http web path ls last s = (s', r, q) -> (exists e, r = HError e) \/ r = HDone a b ->
    exists x, seen_as limit web r q x /\
      exists ph, rwork failover (fun _ _ _ y => y = x) (path, rsync) (RFetch ls last) sh ph
        (mkRShared (match job_kept failover path rsync r with Some true => r_jobs sh | _ => kdel (r_jobs sh) rsync end)
           (r_info sh) (r_log sh ++ [((path, rsync), x)])).
  Proof. exact (pool limit first_more second_more refuse_colons St cb cb_text bad_at). Qed.

  (** What is asked: only the notification file when it cannot be used; else
      also the snapshot, or deltas in order from the stored serial on, and never
      both. *)
  Theorem C101_asked_partial : forall web path ls last s s' r q, fetch_http web path ls last s = (s', r, q) ->
    (forall b n, complete limit (web path) b -> parse_root_octets b = XOk n -> plain_notif n -> plain_serial last ->
       asks n path ls last q) /\
    ((forall b n, complete limit (web path) b -> parse_root_octets b <> XOk n) ->
       s' = s /\ q = [path] /\ exists e, r = HError e).
  Proof.
    intros web path ls last s s' r q H. split.
    - intros b n C P N L. exact (asks_root limit first_more second_more refuse_colons St cb cb_text bad_at web _ _ _ _ _ _ _ b n C P N L H).
    - intros N. exact (asks_none limit first_more second_more refuse_colons St cb cb_text bad_at web _ _ _ _ _ _ _ N H).
  Qed.

  (** The fuel suffices. *)
  Theorem C101_ends : forall web path ls last s,
    (forall b n, complete limit (web path) b -> parse_root_octets b = XOk n -> plain_notif n) -> plain_serial last ->
    snd (fst (fetch_http web path ls last s)) <> HFuel.
  Proof. exact (returns limit first_more second_more refuse_colons St cb cb_text bad_at). Qed.
End C101.

(** The texts of the errors. *)
Theorem C101_texts : forall path rsync t,
  error_text path rsync (FPlain t) = t /\
  error_text [] rsync (FFetch t) = str "error fetching for repo: " ++ t /\
  (path <> [] -> error_text path rsync (FFetch t) = str "error fetching for repo rrdp:" ++ path ++ str " (rsync:" ++ rsync ++ str "): " ++ t).
Proof. exact texts. Qed.

(** The errors of octorpki's callback never have the text compared with. *)
Theorem C101_callback_text : forall quoted cause, octo_text quoted cause <> str "http: request body too large".
Proof. exact octo_quiet. Qed.

(** A delta that cannot be downloaded does not make the program take the
    snapshot, as RFC 8182, section 3.4.1, asks for. *)
Theorem C101_snapshot_instead_refuted :
  ~ forall web ls last,
      complete w_limit (web (str "https://r/n.xml")) o_notification ->
      complete w_limit (web (str "https://r/snap.xml")) o_snapshot ->
      exists s' a b q, w_fetch w_limit web ls last = (s', HDone a b, q).
Proof.
  intros H. destruct (H (w_web (w_doc o_snapshot) w_404) (str "s") 8) as (s' & a & b & q & E).
  - split; [reflexivity|unfold w_limit; lia].
  - split; [reflexivity|]. apply Z.leb_le. vm_compute. reflexivity.
  - rewrite (proj1 (proj2 (proj2 w_runs))) in E. discriminate E.
Qed.

(** The download of the certificate of a TAL has no limit: it gives the body of
    any complete response. *)
Theorem C101_tal : forall uri status a body, get_http uri status a = inl body <-> a = Response 200 body None.
Proof. exact tal_body. Qed.
Theorem C101_tal_limit_refuted :
  ~ exists bound : nat, forall uri status a body, get_http uri status a = inl body -> (List.length body <= bound)%nat.
Proof.
  intros (n & H). destruct (tal_unlimited (S n) [] []) as (a & b & E & L). apply H in E. lia.
Qed.

(** A notification file of exactly the limit with a snapshot, a snapshot that
    is too large, a delta that is missing, one that arrives, one that breaks
    off. *)
Example C101_example :
  other_texts w_texts (w_web (w_doc (o_snapshot ++ o_notification)) w_404) /\
  oversized w_limit (w_doc (o_snapshot ++ o_notification)) /\
  w_fetch w_limit (w_web (w_doc o_snapshot) w_404) [] 0 =
    ([mkEvent (str "https://r/snap.xml") (str "rsync://h/m/a.cer") (str "hello") false true 9], HDone (str "s") 9,
     [str "https://r/n.xml"; str "https://r/snap.xml"]) /\
  w_fetch w_limit (w_web (w_doc (o_snapshot ++ o_notification)) w_404) [] 0 =
    ([], HError (FPlain (str "http: request body too large")), [str "https://r/n.xml"; str "https://r/snap.xml"]) /\
  w_fetch w_limit (w_web (w_doc o_snapshot) w_404) (str "s") 8 =
    ([], HError (FFetch (str "status is 404")), [str "https://r/n.xml"; str "https://r/9.xml"]) /\
  w_fetch w_limit (w_web (w_doc o_snapshot) (w_doc w_delta)) (str "s") 8 =
    ([mkEvent (str "https://r/snap.xml") (str "rsync://h/m/a.cer") (str "hello") false false 9], HDone (str "s") 9,
     [str "https://r/n.xml"; str "https://r/9.xml"]) /\
  w_fetch w_limit (w_web (w_doc o_snapshot) (Response 200 w_delta (Some (str "unexpected EOF")))) (str "s") 8 =
    ([], HError (FPlain (str "unexpected EOF")), [str "https://r/n.xml"; str "https://r/9.xml"]) /\
  job_kept true (str "https://r/n.xml") (str "rsync://h/m/") (HError (FPlain (str "http: request body too large"))) = Some false /\
  job_kept true (str "https://r/n.xml") (str "rsync://h/m/") (HError (FFetch (str "status is 404"))) = Some true /\
  job_kept false (str "https://r/n.xml") (str "rsync://h/m/") (HError (FFetch (str "status is 404"))) = Some false /\
  error_text (str "https://r/n.xml") (str "rsync://h/m/") (FFetch (str "status is 404")) =
    str "error fetching for repo rrdp:https://r/n.xml (rsync:rsync://h/m/): status is 404".
Proof.
  split; [apply w_other; intros code body E; [apply (f_equal (fun a => match a with Response _ _ f => f | _ => None end)) in E; discriminate E|discriminate E]|].
  split; [exact w_large|]. destruct w_runs as (A & B & C & D & E). destruct w_kept as (F & G & _ & I & K).
  split; [exact A|]. split; [exact B|]. split; [exact C|]. split; [exact D|]. split; [exact E|].
  split; [exact F|]. split; [exact G|]. split; [exact I|exact K].
Qed.

Print Assumptions C101_download.
Print Assumptions C101_documents.
Print Assumptions C101_bounded.
Print Assumptions C101_large_last.
Print Assumptions C101_large_text.
Print Assumptions C101_failover.
Print Assumptions C101_pool.
Print Assumptions C101_asked_partial.
Print Assumptions C101_ends.
Print Assumptions C101_texts.
Print Assumptions C101_callback_text.
Print Assumptions C101_snapshot_instead_refuted.
Print Assumptions C101_tal.
Print Assumptions C101_tal_limit_refuted.
Print Assumptions C101_example.
