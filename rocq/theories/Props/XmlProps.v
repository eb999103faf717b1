(** C69: RRDP documents. *)
From Coq Require Import String.
From Verif.Model Require Import Base Str Paths Cache Rrdp RrdpXml.
From Verif.Spec Require Import RrdpSpec XmlSpec.
From Verif.Proofs Require Import XmlProofs XmlThm.

(** A document with one delta or snapshot element: exactly the publish and
    withdraw elements directly inside it are read, with their addresses and
    texts, in order. *)
Theorem C69_document_read : forall l p w, update_doc l p w -> parse_node l = XOk (p, w).
Proof. exact update_read. Qed.
Print Assumptions C69_document_read.

Theorem C69_notification_read : forall l n, notification_doc l n -> parse_root l = XOk n.
Proof. exact notification_read. Qed.
Print Assumptions C69_notification_read.

(** The readers end. *)
Theorem C69_ends : forall l, parse_node l <> XFuel /\ parse_root l <> XFuel.
Proof. intros l. split; [exact (node_returns l)|exact (root_returns l)]. Qed.
Print Assumptions C69_ends.

(** A document that breaks off inside its element is refused. *)
Theorem C69_broken_refused : forall l,
  (broken_in update_names l -> parse_node l = XErr) /\
  (broken_in [str "notification"] l -> parse_root l = XErr).
Proof. intros l. split; [exact (broken_read l)|exact (root_broken l)]. Qed.
Print Assumptions C69_broken_refused.

(** An update that succeeds has delivered the contents of the documents it
    needed, which were all complete.  Missing: documents without an element of
    the right name. *)
Theorem C69_update_partial : forall St (cb : event -> St -> St * verdict) get docs path l n ls last s s' a b,
  get path = Some l -> notification_doc l n -> Z.of_nat (List.length (n_deltas n)) < 2 ^ 62 -> plain_serial last ->
  (forall u, linked n u -> serves get docs u) ->
  fetch_xml cb get path ls last s = (s', Done a b) ->
  exists es, plays cb s es s' /\ a = n_session n /\
    ((snapshot_events n docs es /\ b = n_serial n /\ (needs_snapshot n ls last \/ n_serial n = 2 ^ 63 - 1)) \/
     (~ needs_snapshot n ls last /\ update_events n (fun _ => docs) last es /\ b = Z.max last (n_serial n))).
Proof. exact (fun St cb get docs => @xml_update St cb get docs). Qed.
Print Assumptions C69_update_partial.

(** A broken notification, a broken snapshot: nothing happens and the update
    fails. *)
Theorem C69_broken_notification : forall St (cb : event -> St -> St * verdict) get path l ls last s,
  get path = Some l -> broken_in [str "notification"] l ->
  fetch_xml cb get path ls last s = (s, Failed).
Proof. exact (fun St cb get => @xml_broken_root St cb get). Qed.
Print Assumptions C69_broken_notification.

Theorem C69_broken_snapshot : forall St (cb : event -> St -> St * verdict) get path l n lu ls last s,
  get path = Some l -> notification_doc l n -> Z.of_nat (List.length (n_deltas n)) < 2 ^ 62 -> plain_serial last ->
  needs_snapshot n ls last -> get (n_snapshot n) = Some lu -> broken_in update_names lu ->
  fetch_xml cb get path ls last s = (s, Failed).
Proof. exact (fun St cb get => @xml_broken_snapshot St cb get). Qed.
Print Assumptions C69_broken_snapshot.

(** Some other document, or an empty one, at the address of the notification:
    the update fails because the empty address has no snapshot. *)
Theorem C69_foreign_notification : forall St (cb : event -> St -> St * verdict) get path l ls last s,
  get path = Some l -> free [str "notification"] l -> get [] = None -> ls <> [] \/ last = 0 -> plain_serial last ->
  fetch_xml cb get path ls last s = (s, Failed).
Proof. exact (fun St cb get => @xml_no_notification St cb get). Qed.
Print Assumptions C69_foreign_notification.

(** Some other document at the address of the snapshot, or an empty one, or
    one that breaks off before its element: the update succeeds without
    delivering anything, and session and serial are stored. *)
Theorem C69_foreign_refuted : forall St (cb : event -> St -> St * verdict) get path l n lu ls last s,
  get path = Some l -> notification_doc l n -> Z.of_nat (List.length (n_deltas n)) < 2 ^ 62 -> plain_serial last ->
  needs_snapshot n ls last -> get (n_snapshot n) = Some lu -> free update_names lu ->
  fetch_xml cb get path ls last s = (s, Done (n_session n) (n_serial n)).
Proof. exact (fun St cb get => @xml_foreign St cb get). Qed.
Print Assumptions C69_foreign_refuted.

(** A delta of another session and serial is taken for the snapshot. *)
Theorem C69_wrong_kind_refuted :
  fetch_xml x_record (x_get x_delta) (str "https://r/n.xml") [] 0 [] =
    ([mkEvent (str "https://r/snap.xml") (str "rsync://h/m/a.cer") (str "hello") false true 9;
      mkEvent (str "https://r/snap.xml") (str "rsync://h/m/c.cer") [] true true 9], Done (str "s") 9).
Proof. exact x_wrong_kind. Qed.
Print Assumptions C69_wrong_kind_refuted.

(** With a second element in the document the contents of the first are
    delivered twice. *)
Theorem C69_twice_refuted :
  fetch_xml x_record (x_get (x_snapshot ++ tokens (Node (str "snapshot") [] []))) (str "https://r/n.xml") [] 0 [] =
    ([mkEvent (str "https://r/snap.xml") (str "rsync://h/m/a.cer") (str "hello") false true 9;
      mkEvent (str "https://r/snap.xml") (str "rsync://h/m/a.cer") (str "hello") false true 9], Done (str "s") 9).
Proof. exact x_twice. Qed.
Print Assumptions C69_twice_refuted.

Example C69_example :
  notification_doc x_notification x_notif /\
  update_doc x_snapshot [(str "rsync://h/m/a.cer", str "aGVsbG8=")] [] /\
  broken_in update_names (firstn 5 x_snapshot) /\
  fetch_xml x_record (x_get x_snapshot) (str "https://r/n.xml") [] 0 [] =
    ([mkEvent (str "https://r/snap.xml") (str "rsync://h/m/a.cer") (str "hello") false true 9], Done (str "s") 9) /\
  fetch_xml x_record (x_get (firstn 5 x_snapshot)) (str "https://r/n.xml") [] 0 [] = ([], Failed) /\
  fetch_xml x_record (x_get []) (str "https://r/n.xml") [] 0 [] = ([], Done (str "s") 9).
Proof. exact (conj x_notification_ok (conj x_snapshot_ok (conj x_cut_broken x_runs))). Qed.
Print Assumptions C69_example.
