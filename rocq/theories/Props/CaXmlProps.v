(** C100: messages of the publication and setup protocols. *)
From Coq Require Import List ZArith String.
From Verif.Model Require Import Base Str RrdpXml XmlLex CaXml.
From Verif.Spec Require Import JsonSpec XmlSpec XmlTextSpec CaXmlSpec.
From Verif.Proofs Require Import XmlLexRun CaXmlThm CaXmlWrite CaXmlRun.
Import ListNotations.
Open Scope Z_scope.

(** Exactly the messages are decoded, to what they say: the first element has
    to be complete and of the right name, with readable version; the elements
    directly inside are listed in order, and there is no error after that. *)
Theorem C100_messages_decoded : forall first_more second_more refuse_colons ty s m r,
  decode_full first_more second_more refuse_colons ty s = Some (m, r) <->
  exists kids cs, message first_more second_more refuse_colons ty s m kids /\ entries kids cs /\ r = XOk (cs, true).
Proof. exact full_iff. Qed.
Print Assumptions C100_messages_decoded.

(** DecodeXML, which does not look inside, accepts the same ones. *)
Theorem C100_same_accepted : forall first_more second_more refuse_colons ty s m,
  decode_msg first_more second_more refuse_colons ty s = Some m <->
  exists kids, message first_more second_more refuse_colons ty s m kids.
Proof. exact msg_iff. Qed.
Print Assumptions C100_same_accepted.

(** DecodeInner on any octets returns; on those of well-formed content without
    an error. *)
Theorem C100_inner_returns : forall first_more second_more refuse_colons s,
  (exists cs ok, decode_inner first_more second_more refuse_colons s = XOk (cs, ok)) /\
  (forall kids cs, content first_more second_more refuse_colons kids s -> entries kids cs ->
     decode_inner first_more second_more refuse_colons s = XOk (cs, true)).
Proof. intros f g r s. split; [exact (inner_ends f g r s)|exact (fun kids cs => inner_read f g r kids s cs)]. Qed.
Print Assumptions C100_inner_returns.

(** Without an error exactly if they are well-formed content. *)
Theorem C100_inner_exact : forall first_more second_more refuse_colons s cs,
  decode_inner first_more second_more refuse_colons s = XOk (cs, true) <->
  exists kids, content first_more second_more refuse_colons kids s /\ entries kids cs.
Proof. exact inner_iff. Qed.
Print Assumptions C100_inner_exact.

(** What EncodeXMLContent writes is decoded to the same message, whatever the
    values, if XML can express them and the inside is well formed. *)
Theorem C100_written_read : forall first_more second_more refuse_colons ty m kids cs,
  writable ty m -> content first_more second_more refuse_colons kids (g_inner m) -> entries kids cs ->
  decode_full first_more second_more refuse_colons ty (encode_msg ty m) = Some (m, XOk (cs, true)).
Proof. exact write_read. Qed.
Print Assumptions C100_written_read.

(** The inside is written as it is: octets that close the element end the
    message there, and the rest of the inside is lost to the reader. *)
Theorem C100_inside_refuted : forall first_more second_more refuse_colons ty m kids cs y,
  writable ty m -> content first_more second_more refuse_colons kids (g_inner m) -> entries kids cs ->
  decode_full first_more second_more refuse_colons ty
    (encode_msg ty (mkMsg (g_version m) (g_values m) (g_inner m ++ 60 :: 47 :: mt_local ty ++ 62 :: y))) =
  Some (m, XOk (cs, true)).
Proof. exact write_closed. Qed.
Print Assumptions C100_inside_refuted.

(** The name space of an element inside, declared on the message: without
    prefix it is reported as empty, with a prefix as the prefix itself. *)
Theorem C100_namespace_refuted : forall first_more second_more refuse_colons ty s m kids cs p n a x k,
  message first_more second_more refuse_colons ty s m kids -> entries kids cs -> In (Elem (p ++ n) a x k) kids ->
  ((p = [] /\ local_name n n /\ ~ In (str "xmlns") (map fst a)) \/
   (exists q, p = q ++ [58] /\ q <> [] /\ n <> [] /\ ~ In 58 q /\ ~ In 58 n /\ q <> str "xml" /\
      ~ In (str "xmlns:" ++ q) (map fst a))) ->
  decode_full first_more second_more refuse_colons ty s = Some (m, XOk (cs, true)) /\
  exists c, In c cs /\ k_inner c = x /\ k_local c = n /\ k_space c = removelast p.
Proof.
  intros f g r ty s m kids cs p n a x k M E I H. split.
  - apply full_iff. exists kids, cs. auto.
  - exact (space_lost kids cs p n a x k E I H).
Qed.
Print Assumptions C100_namespace_refuted.

(** Declarations of prefixes are taken for attributes; octets that are no text
    are replaced. *)
Theorem C100_attributes_refuted :
  decode_full no_more no_more false t_child_request (q_prefixed "tag") = Some (mkMsg 1 [str "c"; str "urn:x"] [], XOk ([], true)) /\
  decode_full no_more no_more false t_child_request (q_prefixed "version") = None /\
  decode_full no_more no_more false t_child_request (q_prefixed "other") = Some (mkMsg 1 [str "c"; []] [], XOk ([], true)) /\
  decode_full no_more no_more false t_message (encode_msg t_message (mkMsg 4 [[255]] [])) =
    Some (mkMsg 4 [[239; 191; 189]] [], XOk ([], true)).
Proof. exact (conj (proj1 q_prefix) (conj (proj1 (proj2 q_prefix)) (conj (proj2 (proj2 q_prefix)) q_octets))). Qed.
Print Assumptions C100_attributes_refuted.

(** The messages as they are written, with some values; the query that
    NewXMLList makes. *)
Theorem C100_formats : forall inner,
  encode_msg t_message (mkMsg 4 [str "query"] inner) =
    str "<msg xmlns=""http://www.hactrn.net/uris/rpki/publication-spec/"" version=""4"" type=""query"">" ++ inner ++ str "</msg>" /\
  encode_msg t_child_request (mkMsg 1 [str "c"; str "t"] inner) =
    str "<child_request xmlns=""http://www.hactrn.net/uris/rpki/rpki-setup/"" version=""1"" child_handle=""c"" tag=""t"">" ++ inner ++ str "</child_request>" /\
  encode_msg t_parent_response (mkMsg 1 [str "t"; str "s"; str "c"; str "p"] inner) =
    str "<parent_response xmlns=""http://www.hactrn.net/uris/rpki/rpki-setup/"" version=""1"" tag=""t"" service_uri=""s"" child_handle=""c"" parent_handle=""p"">" ++ inner ++ str "</parent_response>" /\
  encode_msg t_publisher_request (mkMsg 1 [str "t"; str "p"] inner) =
    str "<publisher_request xmlns=""http://www.hactrn.net/uris/rpki/rpki-setup/"" version=""1"" tag=""t"" publisher_handle=""p"">" ++ inner ++ str "</publisher_request>" /\
  encode_msg t_repository_response (mkMsg 1 [str "t"; str "s"; str "b"; str "r"; str "p"] inner) =
    str "<repository_response xmlns=""http://www.hactrn.net/uris/rpki/rpki-setup/"" version=""1"" tag=""t"" service_uri=""s"" sia_base=""b"" rrdp_notification_uri=""r"" publisher_handle=""p"">" ++ inner ++ str "</repository_response>" /\
  encode_msg t_message new_list_message =
    str "<msg xmlns=""http://www.hactrn.net/uris/rpki/publication-spec/"" version=""4"" type=""query""><list/></msg>".
Proof. exact formats. Qed.
Print Assumptions C100_formats.

Example C100_example :
  (exists kids, message no_more no_more false t_message q_reply q_message kids /\ entries kids [q_list; q_error]) /\
  decode_full no_more no_more false t_message q_reply = Some (q_message, XOk ([q_list; q_error], true)) /\
  (writable t_message new_list_message /\ writable t_child_request q_request) /\
  (exists kids, content no_more no_more false kids (g_inner q_request) /\
     entries kids [mkContent [] (str "child_bpki_ta") [] [] [] [] (str "AAAA")]) /\
  decode_inner no_more no_more false (str "<list/><list>") = XOk ([mkContent [] (str "list") [] [] [] [] []], false).
Proof. exact (conj q_says (conj q_run (conj q_writable (conj q_inside q_inner)))). Qed.
Print Assumptions C100_example.
