(** Messages as octets: runs. *)
From Coq Require Import List ZArith Lia Bool String.
From Verif.Model Require Import Base Str Der NetText Json Rrdp RrdpXml XmlLex CaXml.
From Verif.Spec Require Import JsonSpec XmlSpec XmlTextSpec CaXmlSpec.
From Verif.Proofs Require Import StrProofs XmlLexThm XmlLexRun CaXmlProofs CaXmlThm CaXmlWrite.
Import ListNotations.
Open Scope Z_scope.

Definition q_reply : bytes := str
  "<?xml version='1.0'?> <msg xmlns='http://www.hactrn.net/uris/rpki/publication-spec/' version=' 4' type='reply'><list uri='rsync://h/a.cer' hash='01'/> <!-- and --><report_error error_code='other' tag='t'><error_text>no</error_text></report_error></msg> what follows <".
Definition q_message : xmsg := mkMsg 4 [str "reply"]
  (str "<list uri='rsync://h/a.cer' hash='01'/> <!-- and --><report_error error_code='other' tag='t'><error_text>no</error_text></report_error>").
Definition q_list : xcontent := mkContent [] (str "list") (str "01") [] [] (str "rsync://h/a.cer") [].
Definition q_error : xcontent := mkContent [] (str "report_error") [] (str "other") (str "t") [] (str "<error_text>no</error_text>").
Lemma q_run : decode_full no_more no_more false t_message q_reply = Some (q_message, XOk ([q_list; q_error], true)).
Proof. vm_compute. reflexivity. Qed.
Lemma q_says : exists kids, CaXmlSpec.message no_more no_more false t_message q_reply q_message kids /\ entries kids [q_list; q_error].
Proof.
  destruct (proj1 (full_iff _ _ _ _ _ _ _) q_run) as (kids & cs & M & E & R). exists kids. split; [exact M|].
  apply (f_equal (fun r => match r with XOk (l, _) => l | _ => [] end)) in R. cbv iota beta in R. rewrite R. exact E.
Qed.

Definition q_request : xmsg := mkMsg 1 [str "Alice & ""Bob"""; [195; 169]] (str "<child_bpki_ta>AAAA</child_bpki_ta>").
Lemma q_writable : writable t_message new_list_message /\ writable t_child_request q_request.
Proof.
  assert (P : forall s, forallb (fun b => in_range 32 126 b) s = true -> chars allowed s).
  { intros s H. apply plain_chars. apply Forall_forall. intros b B. rewrite forallb_forall in H. specialize (H b B). unfold in_range in H.
    apply andb_true_iff in H as [H1 H2]. apply Z.leb_le in H1. apply Z.leb_le in H2. lia. }
  split.
  - split; [left; reflexivity|]. split; [reflexivity|]. split; [|cbn; lia]. constructor; [apply P; reflexivity|constructor].
  - split; [right; left; reflexivity|]. split; [reflexivity|]. split; [|cbn; lia]. constructor; [apply P; reflexivity|]. constructor; [|constructor].
    change [195; 169] with (utf8 233 ++ []). constructor; [unfold scalar; lia|unfold allowed; lia|constructor].
Qed.
Lemma q_inside : exists kids, content no_more no_more false kids (g_inner q_request) /\
  entries kids [mkContent [] (str "child_bpki_ta") [] [] [] [] (str "AAAA")].
Proof.
  destruct (o_content (g_inner q_request)) as (kids & C); [vm_compute; reflexivity|]. exists kids. split; [exact C|].
  destruct (entries_total kids) as (cs & E). pose proof (inner_read _ _ _ kids _ cs C E) as R.
  assert (V : decode_inner no_more no_more false (g_inner q_request) = XOk ([mkContent [] (str "child_bpki_ta") [] [] [] [] (str "AAAA")], true))
    by (vm_compute; reflexivity).
  rewrite V in R. apply (f_equal (fun r => match r with XOk (l, _) => l | _ => [] end)) in R. cbv iota beta in R. rewrite R. exact E.
Qed.
Lemma q_written : encode_msg t_child_request q_request = str
  "<child_request xmlns=""http://www.hactrn.net/uris/rpki/rpki-setup/"" version=""1"" child_handle=""Alice &amp; &#34;Bob&#34;"" tag=""" ++
  [195; 169] ++ str """><child_bpki_ta>AAAA</child_bpki_ta></child_request>".
Proof. vm_compute. reflexivity. Qed.

(** A declaration of the prefix tag is taken for the attribute tag; a prefix
    version makes the message unreadable. *)
Definition q_prefixed (p : string) : bytes := str "<child_request xmlns='http://www.hactrn.net/uris/rpki/rpki-setup/' version='1' child_handle='c' " ++
  str "xmlns:" ++ str p ++ str "='urn:x'></child_request>".
Lemma q_prefix : decode_full no_more no_more false t_child_request (q_prefixed "tag") = Some (mkMsg 1 [str "c"; str "urn:x"] [], XOk ([], true)) /\
  decode_full no_more no_more false t_child_request (q_prefixed "version") = None /\
  decode_full no_more no_more false t_child_request (q_prefixed "other") = Some (mkMsg 1 [str "c"; []] [], XOk ([], true)).
Proof. split; [|split]; vm_compute; reflexivity. Qed.
(** Octets that are no text are replaced. *)
Lemma q_octets : decode_full no_more no_more false t_message (encode_msg t_message (mkMsg 4 [[255]] [])) =
  Some (mkMsg 4 [[239; 191; 189]] [], XOk ([], true)).
Proof. vm_compute. reflexivity. Qed.
(** The inside alone need not be complete. *)
Lemma q_inner : decode_inner no_more no_more false (str "<list/><list>") = XOk ([mkContent [] (str "list") [] [] [] [] []], false).
Proof. vm_compute. reflexivity. Qed.
Lemma formats : forall inner,
  encode_msg t_message (mkMsg 4 [str "query"] inner) =
    str "<msg xmlns=""http://www.hactrn.net/uris/rpki/publication-spec/"" version=""4"" type=""query"">" ++ inner ++ str "</msg>" /\
  encode_msg t_child_request (mkMsg 1 [str "c"; str "t"] inner) =
    str "<child_request xmlns=""http://www.hactrn.net/uris/rpki/rpki-setup/"" version=""1"" child_handle=""c"" tag=""t"">" ++ inner ++ str "</child_request>" /\
  encode_msg t_parent_response (mkMsg 1 [str "t"; str "s"; str "c"; str "p"] inner) =
    str "<parent_response xmlns=""http://www.hactrn.net/uris/rpki/rpki-setup/"" version=""1"" tag=""t"" service_uri=""s"" child_handle=""c"" parent_handle=""p"">" ++ inner ++ str "</parent_response>" /\
  encode_msg t_publisher_request (mkMsg 1 [str "t"; str "p"] inner) =
    str "<publisher_request xmlns=""http://www.hactrn.net/uris/rpki/rpki-setup/"" version=""1"" tag=""t"" publisher_handle=""p"">" ++ inner ++ str "</publisher_request>" /\
  encode_msg t_repository_response (mkMsg 1 [str "t"; str "s"; str "b"; str "r"; str "p"] inner) =
    str "<repository_response xmlns=""http://www.hactrn.net/uris/rpki/rpki-setup/"" version=""1"" tag=""t"" service_uri=""s"" sia_base=""b"" rrdp_notification_uri=""r"" publisher_handle=""p"">" ++ inner ++ str "</repository_response>" /\
  encode_msg t_message new_list_message =
    str "<msg xmlns=""http://www.hactrn.net/uris/rpki/publication-spec/"" version=""4"" type=""query""><list/></msg>".
Proof.
  intros inner. split; [reflexivity|]. split; [reflexivity|]. split; [reflexivity|]. split; [reflexivity|]. split; reflexivity.
Qed.
