(** C99: RRDP documents as octets. *)
From Coq Require Import List ZArith String.
From Verif.Model Require Import Base Str Paths Cache Rrdp RrdpXml XmlLex.
From Verif.Spec Require Import RrdpSpec XmlSpec XmlTextSpec.
From Verif.Proofs Require Import XmlThm XmlLexThm XmlLexRrdp XmlLexRun.
Import ListNotations.
Open Scope Z_scope.

(** The tokens of an XML text are those of the trees it stands for, whatever
    characters beyond ASCII are allowed in names. *)
Theorem C99_text_read : forall first_more second_more refuse_colons s t,
  xml_text first_more second_more refuse_colons s t ->
  xml_tokens first_more second_more refuse_colons s = stream t.
Proof. exact tokens_read. Qed.
Print Assumptions C99_text_read.

(** Exactly the XML texts are read to their end, and reading always ends. *)
Theorem C99_texts_only : forall first_more second_more refuse_colons s,
  (snd (lex_all first_more second_more refuse_colons s) = AtEnd <->
   exists t, xml_text first_more second_more refuse_colons s t) /\
  snd (lex_all first_more second_more refuse_colons s) <> NoFuel.
Proof. intros f g r s. split; [exact (end_iff f g r s)|exact (lex_ends f g r s)]. Qed.
Print Assumptions C99_texts_only.

(** Any octets: what is delivered of them is free of elements of these names,
    or breaks off inside the first one, or has all of it. *)
Theorem C99_any_octets : forall first_more second_more refuse_colons names s,
  free names (xml_tokens first_more second_more refuse_colons s) \/
  broken_in names (xml_tokens first_more second_more refuse_colons s) \/
  exists before n a kids after,
    xml_tokens first_more second_more refuse_colons s = before ++ tokens (Node n a kids) ++ after /\
    In n names /\ free names before.
Proof. exact any_octets. Qed.
Print Assumptions C99_any_octets.

(** Snapshots, deltas and notifications as octets. *)
Theorem C99_documents_read : forall first_more second_more refuse_colons s t,
  xml_text first_more second_more refuse_colons s t ->
  (forall p w, update_doc (stream t) p w ->
     parse_node_octets first_more second_more refuse_colons s = XOk (p, w)) /\
  (forall n, notification_doc (stream t) n ->
     parse_root_octets first_more second_more refuse_colons s = XOk n).
Proof. intros f g r s t X. split; [exact (fun p w => octets_update f g r s t p w X)|exact (fun n => octets_notification f g r s t n X)]. Qed.
Print Assumptions C99_documents_read.

(** A download that stops at any octet between the start tag of the element
    and the end of its end tag is refused. *)
Theorem C99_cut_refused : forall first_more second_more refuse_colons s,
  (cut_off first_more second_more refuse_colons update_names s ->
     parse_node_octets first_more second_more refuse_colons s = XErr) /\
  (cut_off first_more second_more refuse_colons [str "notification"] s ->
     parse_root_octets first_more second_more refuse_colons s = XErr).
Proof. exact cut_refused. Qed.
Print Assumptions C99_cut_refused.

(** An update that succeeds has delivered the contents of the texts it needed,
    which were all complete.  Missing: texts that are not XML after the element
    or before it, and those with no element or several. *)
Theorem C99_update_partial : forall first_more second_more refuse_colons St (cb : event -> St -> St * verdict)
  get docs path s t n ls last st st' a b,
  get path = Some s -> xml_text first_more second_more refuse_colons s t -> notification_doc (stream t) n ->
  Z.of_nat (List.length (n_deltas n)) < 2 ^ 62 -> plain_serial last ->
  (forall u, linked n u -> serves_text first_more second_more refuse_colons get docs u) ->
  fetch_octets first_more second_more refuse_colons cb get path ls last st = (st', Done a b) ->
  exists es, plays cb st es st' /\ a = n_session n /\
    ((snapshot_events n docs es /\ b = n_serial n /\ (needs_snapshot n ls last \/ n_serial n = 2 ^ 63 - 1)) \/
     (~ needs_snapshot n ls last /\ update_events n (fun _ => docs) last es /\ b = Z.max last (n_serial n))).
Proof. exact (fun f g r St cb get docs => @octets_fetch f g r St cb get docs). Qed.
Print Assumptions C99_update_partial.

Theorem C99_cut_snapshot : forall first_more second_more refuse_colons St (cb : event -> St -> St * verdict)
  get path s t n r ls last st,
  get path = Some s -> xml_text first_more second_more refuse_colons s t -> notification_doc (stream t) n ->
  Z.of_nat (List.length (n_deltas n)) < 2 ^ 62 -> plain_serial last -> needs_snapshot n ls last ->
  get (n_snapshot n) = Some r -> cut_off first_more second_more refuse_colons update_names r ->
  fetch_octets first_more second_more refuse_colons cb get path ls last st = (st, Failed).
Proof. exact (fun f g r St cb get => @octets_cut f g r St cb get). Qed.
Print Assumptions C99_cut_snapshot.

(** A snapshot that declares an encoding other than UTF-8, whatever it is and
    whatever follows: the update succeeds without delivering anything, and
    session and serial are stored. *)
Theorem C99_encoding_refuted : forall first_more second_more refuse_colons St (cb : event -> St -> St * verdict)
  get path s t n d v r ls last st,
  get path = Some s -> xml_text first_more second_more refuse_colons s t -> notification_doc (stream t) n ->
  Z.of_nat (List.length (n_deltas n)) < 2 ^ 62 -> plain_serial last -> needs_snapshot n ls last ->
  get (n_snapshot n) = Some (str "<?xml " ++ d ++ str "?>" ++ r) ->
  declares (str "encoding") d v -> v <> [] -> ~ folded v (str "utf-8") ->
  ~ infix (str "?>") d -> (forall b r, d = b :: r -> ~ In b [32; 9; 10; 13]) ->
  fetch_octets first_more second_more refuse_colons cb get path ls last st = (st, Done (n_session n) (n_serial n)).
Proof. exact (fun f g r St cb get => @octets_encoding f g r St cb get). Qed.
Print Assumptions C99_encoding_refuted.

(** Texts that are not well-formed documents are read to their end. *)
Theorem C99_wellformed_refuted : exists t,
  xml_text no_more no_more false (str "<a x='1' x='2'/><b/>") t /\
  stream t = stream [Node (str "a") [(str "x", str "1"); (str "x", str "2")] []; Node (str "b") [] []].
Proof. exact o_several. Qed.
Print Assumptions C99_wellformed_refuted.

Example C99_example :
  (exists t, xml_text no_more no_more false o_notification t /\ stream t = x_notification) /\
  (exists t, xml_text no_more no_more false o_snapshot t /\ stream t = x_snapshot) /\
  notification_doc x_notification x_notif /\
  update_doc x_snapshot [(str "rsync://h/m/a.cer", str "aGVsbG8=")] [] /\
  cut_off no_more no_more false update_names o_part /\
  (declares (str "encoding") (str "version='1.0' encoding='us-ascii'") (str "us-ascii") /\
   ~ folded (str "us-ascii") (str "utf-8")) /\
  fetch_octets no_more no_more false x_record (o_get o_snapshot) (str "https://r/n.xml") [] 0 [] =
    ([mkEvent (str "https://r/snap.xml") (str "rsync://h/m/a.cer") (str "hello") false true 9], Done (str "s") 9) /\
  fetch_octets no_more no_more false x_record (o_get o_part) (str "https://r/n.xml") [] 0 [] = ([], Failed) /\
  fetch_octets no_more no_more false x_record (o_get o_ascii) (str "https://r/n.xml") [] 0 [] = ([], Done (str "s") 9).
Proof.
  exact (conj o_notification_text (conj o_snapshot_text (conj x_notification_ok (conj x_snapshot_ok (conj o_part_cut (conj o_ascii_declares o_runs)))))).
Qed.
Print Assumptions C99_example.
