(** Messages of the publication and setup protocols: ca/xml.go, and
    validator/lib/xml.go:30-38 for writing them, on octets.

    encoding/xml (not part of /repo): Decode fills a struct from the first
    element by local names of attributes; Encode writes it back.  After an
    error nothing is said about the struct. *)
From Coq Require Import String.
From Verif.Model Require Import Base Str Der NetText Json Cache Rrdp RrdpXml XmlLex.

(** ** Types *)

(** The tags of a struct: name space and name of the element, the attributes
    besides version that are strings, in order. *)
Record mtype := mkType { mt_space : bytes; mt_local : bytes; mt_strings : list bytes }.
Definition publication : bytes := str "http://www.hactrn.net/uris/rpki/publication-spec/".
Definition setup : bytes := str "http://www.hactrn.net/uris/rpki/rpki-setup/".
(** ca/xml.go:14-19 XMLMessage *)
Definition t_message : mtype := mkType publication (str "msg") [str "type"].
(** ca/xml.go:21-27 XMLMessageChildRequest *)
Definition t_child_request : mtype := mkType setup (str "child_request") [str "child_handle"; str "tag"].
(** ca/xml.go:29-37 XMLMessageParentResponse *)
Definition t_parent_response : mtype :=
  mkType setup (str "parent_response") [str "tag"; str "service_uri"; str "child_handle"; str "parent_handle"].
(** ca/xml.go:39-45 XMLMessagePublisherRequest *)
Definition t_publisher_request : mtype :=
  mkType setup (str "publisher_request") [str "tag"; str "publisher_handle"].
(** ca/xml.go:47-56 XMLMessageRepositoryResponse *)
Definition t_repository_response : mtype :=
  mkType setup (str "repository_response")
    [str "tag"; str "service_uri"; str "sia_base"; str "rrdp_notification_uri"; str "publisher_handle"].

(** A message: Version, the strings in order, Inner. *)
Record xmsg := mkMsg { g_version : Z; g_values : list bytes; g_inner : bytes }.
(** ca/xml.go:66-73 Content *)
Record xcontent := mkContent {
  k_space : bytes; k_local : bytes; k_hash : bytes; k_code : bytes; k_tag : bytes; k_uri : bytes; k_inner : bytes }.
(** ca/xml.go:58-64 NewXMLList *)
Definition new_list_message : xmsg := mkMsg 4 [str "query"] (str "<list/>").

(** ** Names *)

(** Decoder.Token on a start tag without open elements around it: the
    declarations are those of the tag itself, the last one of each prefix. *)
Fixpoint ns_of (p : bytes) (attrs : list (bytes * bytes)) (cur : option bytes) : option bytes :=
  match attrs with
  | [] => cur
  | (n, v) :: r =>
      let (q, l) := split_name n in
      ns_of p r (if beq q (str "xmlns") && beq l p then Some v
                 else if beq q [] && beq l (str "xmlns") && beq p [] then Some v else cur)
  end.
(** Decoder.translate of an element name.  The name space of the prefix xml
    has a colon, so that no declaration applies to it. *)
Definition space_name (attrs : list (bytes * bytes)) (n : bytes) : bytes :=
  let (p, l) := split_name n in
  if beq p (str "xmlns") then p
  else if beq p (str "xml") then str "http://www.w3.org/XML/1998/namespace"
  else if beq p [] && beq l (str "xmlns") then []
  else match ns_of p attrs None with Some v => v | None => p end.
Definition locals (attrs : list (bytes * bytes)) : list (bytes * bytes) :=
  map (fun x => (local (fst x), snd x)) attrs.

(** ** Decode *)

(** Decoder.Skip and the loop of Decoder.unmarshal: the position before the
    end tag, and the tokens after it. *)
Fixpoint to_end (depth : nat) (l : list ptok) : option (bytes * list ptok) :=
  match l with
  | [] => None
  | (t, p, _) :: r =>
      match t, depth with
      | KEnd, O => Some (p, r)
      | KEnd, S d => to_end d r
      | KStart _ _, _ => to_end (S depth) r
      | _, _ => to_end depth r
      end
  end.
(** Decoder.unmarshal: the first element with the octets inside; the end of
    the input; an error. *)
Inductive dnext := DElem (n : bytes) (attrs : list (bytes * bytes)) (inner : bytes) (rest : list ptok) | DEof | DError.
Fixpoint decode_next (l : list ptok) (e : ending) : dnext :=
  match l with
  | [] => match e with AtEnd => DEof | _ => DError end
  | (KStart n a, _, q) :: r =>
      match to_end 0 r with
      | Some (p, r') => DElem n a (firstn (List.length q - List.length p) q) r'
      | None => DError
      end
  | _ :: r => decode_next r e
  end.

Section Ca.
Variable first_more second_more : Z -> bool.
Variable refuse_colons : bool.
Notation lex_all := (lex_all first_more second_more refuse_colons).

(** ca/xml.go:91-97 DecodeXML, and Decode in 99-133 *)
Definition decode_msg (ty : mtype) (s : bytes) : option xmsg :=
  let (l, e) := lex_all s in
  match decode_next l e with
  | DElem n a inner _ =>
      if beq (local n) (mt_local ty) && beq (space_name a n) (mt_space ty) then
        match attr_int (str "version") (locals a) 0 with
        | Some v => Some (mkMsg v (map (fun f => attr f (locals a) []) (mt_strings ty)) inner)
        | None => None
        end
      else None
  | _ => None
  end.

(** ca/xml.go:75-89 DecodeInner: the elements, and whether the error is nil *)
Definition as_content (n : bytes) (a : list (bytes * bytes)) (inner : bytes) : xcontent :=
  mkContent (space_name a n) (local n) (attr (str "hash") (locals a) []) (attr (str "error_code") (locals a) [])
    (attr (str "tag") (locals a) []) (attr (str "uri") (locals a) []) inner.
Fixpoint decode_all (fuel : nat) (l : list ptok) (e : ending) : xres (list xcontent * bool) :=
  match fuel with
  | O => XFuel
  | S k =>
      match decode_next l e with
      | DEof => XOk ([], true)
      | DError => XOk ([], false)
      | DElem n a inner r =>
          match decode_all k r e with
          | XOk (cs, ok) => XOk (as_content n a inner :: cs, ok)
          | x => x
          end
      end
  end.
Definition decode_inner (s : bytes) : xres (list xcontent * bool) :=
  match s with
  | [] => XOk ([], true)
  | _ => let (l, e) := lex_all s in decode_all (S (List.length l)) l e
  end.
(** ca/xml.go:99-109, 111-121, 123-133 DecodeXMLFull, DecodeXMLCRFull,
    DecodeXMLPRFull *)
Definition decode_full (ty : mtype) (s : bytes) : option (xmsg * xres (list xcontent * bool)) :=
  match decode_msg ty s with
  | Some m => Some (m, decode_inner (g_inner m))
  | None => None
  end.
End Ca.

(** ** Encode *)

(** printer.EscapeString *)
Definition escape1 (c : Z) : bytes :=
  if c =? 34 then str "&#34;" else if c =? 39 then str "&#39;" else if c =? 38 then str "&amp;"
  else if c =? 60 then str "&lt;" else if c =? 62 then str "&gt;" else if c =? 9 then str "&#x9;"
  else if c =? 10 then str "&#xA;" else if c =? 13 then str "&#xD;"
  else if xml_char c then utf8_rune c else utf8_rune 65533.
Fixpoint escape (fuel : nat) (s : bytes) : bytes :=
  match fuel, s with
  | S k, b :: r =>
      match next_rune s with
      | Some (c, r') => escape1 c ++ escape k r'
      | None => utf8_rune 65533 ++ escape k r
      end
  | _, _ => []
  end.
Definition escaped (s : bytes) : bytes := escape (List.length s) s.
(** printer.marshalValue, writeStart, marshalStruct, writeEnd for these types *)
Definition out_attr (n v : bytes) : bytes := 32 :: n ++ 61 :: 34 :: escaped v ++ [34].
Definition encode_msg (ty : mtype) (m : xmsg) : bytes :=
  60 :: mt_local ty ++ out_attr (str "xmlns") (mt_space ty) ++ out_attr (str "version") (dec (g_version m)) ++
  flat_map (fun x => out_attr (fst x) (snd x)) (combine (mt_strings ty) (g_values m)) ++
  62 :: g_inner m ++ 60 :: 47 :: mt_local ty ++ [62].
