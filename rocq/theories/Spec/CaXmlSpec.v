(** What a message of the publication and setup protocols says.  No function
    of the decoder is used. *)
From Coq Require Import List ZArith String.
From Verif.Model Require Import Base Str CaXml.
From Verif.Spec Require Import JsonSpec XmlSpec XmlTextSpec.
Import ListNotations.
Open Scope Z_scope.

(** The name space of an element by the declarations on the element itself:
    that of its prefix, the default one without prefix; an undeclared prefix
    stands for itself. *)
Inductive space_of (a : list (bytes * bytes)) : bytes -> bytes -> Prop :=
| so_default n v : local_name n n -> n <> str "xmlns" -> attr_is (str "xmlns") a [] v -> space_of a n v
| so_prefix p l v : p <> [] -> l <> [] -> ~ In 58 p -> ~ In 58 l -> p <> str "xml" -> p <> str "xmlns" ->
    attr_is (str "xmlns:" ++ p) a p v -> space_of a (p ++ 58 :: l) v
| so_xml l : l <> [] -> ~ In 58 l -> space_of a (str "xml:" ++ l) (str "http://www.w3.org/XML/1998/namespace")
| so_xmlns l : l <> [] -> ~ In 58 l -> space_of a (str "xmlns:" ++ l) (str "xmlns")
| so_self : space_of a (str "xmlns") [].

Definition local_attrs (a a' : list (bytes * bytes)) : Prop :=
  Forall2 (fun u v => local_name (fst u) (fst v) /\ snd u = snd v) a a'.
(** The value of a string attribute, by its local name. *)
Definition field (a : list (bytes * bytes)) (f v : bytes) : Prop :=
  exists a', local_attrs a a' /\ attr_is f a' [] v.
(** Integers of 64 bits as text, with white space around them. *)
Definition integer (x : bytes) (n : Z) : Prop :=
  (x = [] /\ n = 0) \/
  exists w1 sg d w2 k, x = w1 ++ sg ++ d ++ w2 /\ number 10 dec_digit d k /\
    Forall (fun b => b = 32 \/ 9 <= b <= 13) w1 /\ Forall (fun b => b = 32 \/ 9 <= b <= 13) w2 /\
    ((sg = [45] /\ n = - k) \/ ((sg = [] \/ sg = [43]) /\ n = k)) /\ - 2 ^ 63 <= n < 2 ^ 63.
Definition version_is (a : list (bytes * bytes)) (v : Z) : Prop :=
  exists a' x, local_attrs a a' /\ (forall y, In (str "version", y) a' -> exists n, integer y n) /\
    attr_is (str "version") a' [] x /\ integer x v.

Section Messages.
Variable first_more second_more : Z -> bool.
Variable refuse_colons : bool.
Notation content := (content first_more second_more refuse_colons).

(** A message: the first element, of the right name.  Nothing is said about
    the octets after it. *)
Definition message (ty : mtype) (s : bytes) (m : xmsg) (kids : list item) : Prop :=
  exists l u e rest n a, s = u ++ e ++ rest /\ content l u /\ (forall n a x k, ~ In (Elem n a x k) l) /\
    content [Elem n a (g_inner m) kids] e /\ local_name n (mt_local ty) /\ space_of a n (mt_space ty) /\
    Forall2 (field a) (mt_strings ty) (g_values m) /\ version_is a (g_version m).
End Messages.

(** The elements directly inside. *)
Definition entry (n : bytes) (a : list (bytes * bytes)) (x : bytes) (c : xcontent) : Prop :=
  local_name n (k_local c) /\ space_of a n (k_space c) /\ field a (str "hash") (k_hash c) /\
  field a (str "error_code") (k_code c) /\ field a (str "tag") (k_tag c) /\ field a (str "uri") (k_uri c) /\
  k_inner c = x.
Inductive entries : list item -> list xcontent -> Prop :=
| en_nil : entries [] []
| en_elem n a x k c l cs : entry n a x c -> entries l cs -> entries (Elem n a x k :: l) (c :: cs)
| en_text t l cs : entries l cs -> entries (Text t :: l) cs
| en_other l cs : entries l cs -> entries (Other :: l) cs.

(** The messages that can be written as they are: values of characters that
    XML allows, one for each attribute. *)
Definition writable (ty : mtype) (m : xmsg) : Prop :=
  In ty [t_message; t_child_request; t_parent_response; t_publisher_request; t_repository_response] /\
  List.length (g_values m) = List.length (mt_strings ty) /\ Forall (chars allowed) (g_values m) /\
  - 2 ^ 63 <= g_version m < 2 ^ 63.
