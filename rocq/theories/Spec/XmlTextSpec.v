(** XML texts (XML 1.0, fifth edition) as far as they can be told apart
    without a document type, and what they contain.  No function of the
    decoder is used. *)
From Coq Require Import List ZArith String.
From Verif.Model Require Import Base Str Rrdp RrdpXml.
From Verif.Spec Require Import JsonSpec XmlSpec.
Import ListNotations.
Open Scope Z_scope.

Definition infix (p s : bytes) : Prop := exists a b, s = a ++ p ++ b.
Definition prefix (p s : bytes) : Prop := exists b, s = p ++ b.

(** ** Characters and names *)

(** A text in UTF-8 all of whose characters are among [P]. *)
Inductive chars (P : Z -> Prop) : bytes -> Prop :=
| ch_nil : chars P []
| ch_cons c s : scalar c -> P c -> chars P s -> chars P (utf8 c ++ s).
(** [2] Char *)
Definition allowed (c : Z) : Prop := c = 9 \/ c = 10 \/ c = 13 \/ (32 <= c /\ c <> 65534 /\ c <> 65535).
(** [3] S *)
Definition blank (s : bytes) : Prop := Forall (fun b => In b [32; 9; 10; 13]) s.

(** ** Character data *)

(** [66] CharRef and the five entities that need no declaration: the text
    between & and ; and what it stands for. *)
Definition number (base : Z) (digit : Z -> Z -> Prop) (s : bytes) (n : Z) : Prop :=
  s <> [] /\ exists ds, Forall2 digit ds s /\ n = fold_left (fun a d => a * base + d) ds 0.
Definition dec_digit (n c : Z) : Prop := 0 <= n <= 9 /\ c = 48 + n.
Definition character (n : Z) (t : bytes) : Prop :=
  (scalar n /\ t = utf8 n) \/ (55296 <= n < 57344 /\ t = utf8 65533).
Inductive ref : bytes -> bytes -> Prop :=
| rf_lt : ref (str "lt") [60]
| rf_gt : ref (str "gt") [62]
| rf_amp : ref (str "amp") [38]
| rf_apos : ref (str "apos") [39]
| rf_quot : ref (str "quot") [34]
| rf_dec s n t : number 10 dec_digit s n -> character n t -> ref (35 :: s) t
| rf_hex s n t : number 16 hex_digit s n -> character n t -> ref (35 :: 120 :: s) t.

(** Text without the octets [stop], and what it stands for: line ends become
    line feeds, references are resolved if [refs]. *)
Inductive reads (stop : list Z) (refs : Prop) : bytes -> bytes -> Prop :=
| re_nil : reads stop refs [] []
| re_octet b s d : ~ In b (13 :: stop) -> reads stop refs s d -> reads stop refs (b :: s) (b :: d)
| re_crlf s d : reads stop refs s d -> reads stop refs (13 :: 10 :: s) (10 :: d)
| re_cr s d : ~ prefix [10] s -> reads stop refs s d -> reads stop refs (13 :: s) (10 :: d)
| re_ref e t s d : refs -> ref e t -> reads stop refs s d -> reads stop refs (38 :: e ++ 59 :: s) (t ++ d).

(** [14] CharData, [18] CDSect, [10] AttValue: texts and what they stand for. *)
Definition chardata (s d : bytes) : Prop :=
  s <> [] /\ reads [60; 38] True s d /\ ~ infix (str "]]>") s /\ chars allowed d.
Definition cdata (s d : bytes) : Prop :=
  exists x, s = str "<![CDATA[" ++ x ++ str "]]>" /\ reads [] False x d /\ ~ infix (str "]]>") x /\ chars allowed d.
Definition quoted (s d : bytes) : Prop :=
  exists q x, (q = 34 \/ q = 39) /\ s = q :: x ++ [q] /\ reads [60; 38; q] True x d /\ chars allowed d.

(** ** Comments, processing instructions, directives *)

(** [15] Comment *)
Definition comment (s : bytes) : Prop :=
  exists x, s = str "<!--" ++ x ++ str "-->" /\ ~ infix (str "--") (x ++ str "-").
(** The value that an XML declaration gives to a name: that after the first
    occurrence of the name and an equals sign. *)
Definition declares (name d v : bytes) : Prop :=
  exists a q b, d = a ++ name ++ 61 :: q :: v ++ q :: b /\ (q = 34 \/ q = 39) /\ ~ In q v /\
    (forall a' b', d = a' ++ name ++ 61 :: b' -> (List.length a <= List.length a')%nat).
Definition folded (a b : bytes) : Prop :=
  Forall2 (fun x y => x = y \/ (65 <= x <= 90 /\ y = x + 32)) a b.
Definition declaration (d : bytes) : Prop :=
  (forall v, declares (str "version") d v -> v = [] \/ v = str "1.0") /\
  (forall v, declares (str "encoding") d v -> v = [] \/ folded v (str "utf-8")).

(** Inside a directive: quotes and angle brackets are balanced, comments are
    passed over. *)
Inductive directive_text : bytes -> Prop :=
| dt_nil : directive_text []
| dt_octet b s : ~ In b [34; 39; 60; 62] -> directive_text s -> directive_text (b :: s)
| dt_quoted q x s : In q [34; 39] -> ~ In q x -> directive_text s -> directive_text (q :: x ++ q :: s)
| dt_nested x s : directive_text x -> ~ prefix (str "!--") x -> directive_text s ->
    directive_text (60 :: x ++ 62 :: s)
| dt_comment x s : ~ infix (str "-->") x -> directive_text s ->
    directive_text (str "<!--" ++ x ++ str "-->" ++ s).
Definition directive (s : bytes) : Prop :=
  exists b x, s = str "<!" ++ b :: x ++ [62] /\ b <> 45 /\ b <> 91 /\ directive_text x.

Section Grammar.
(** The characters beyond ASCII that may begin a name, and that may occur
    later in one; whether names may have several colons. *)
Variable first_more second_more : Z -> bool.
Variable refuse_colons : bool.

(** [4] NameStartChar, [4a] NameChar, [5] Name *)
Definition start_char (c : Z) : Prop :=
  c = 58 \/ 65 <= c <= 90 \/ c = 95 \/ 97 <= c <= 122 \/ (128 <= c /\ first_more c = true).
Definition name_char (c : Z) : Prop :=
  start_char c \/ c = 45 \/ c = 46 \/ 48 <= c <= 57 \/ (128 <= c /\ second_more c = true).
Definition name (n : bytes) : Prop :=
  exists c r, n = utf8 c ++ r /\ scalar c /\ start_char c /\ chars name_char r.
Definition tag_name (n : bytes) : Prop :=
  name n /\ (refuse_colons = true -> forall a b c, n <> a ++ 58 :: b ++ 58 :: c).

(** No octet of a name comes next. *)
Definition stops (s : bytes) : Prop := forall b r, s = b :: r -> b < 128 /\ ~ name_char b.

(** [16] PI: white space after the target is not required. *)
Definition instruction (s : bytes) : Prop :=
  exists t w d, s = str "<?" ++ t ++ w ++ d ++ str "?>" /\ name t /\ blank w /\
    (forall b r, d = b :: r -> ~ In b [32; 9; 10; 13]) /\ stops (w ++ d ++ str "?>") /\
    ~ infix (str "?>") d /\ (t = str "xml" -> declaration d).

(** [41] Attribute: white space before it is not required. *)
Inductive attributes : list (bytes * bytes) -> bytes -> Prop :=
| at_nil : attributes [] []
| at_cons n v w1 w2 w3 q l s : tag_name n -> blank w1 -> blank w2 -> blank w3 -> quoted q v -> attributes l s ->
    attributes ((n, v) :: l) (w1 ++ n ++ w2 ++ 61 :: w3 ++ q ++ s).

(** [43] content: a sequence of elements (with the octets inside), texts and
    the rest. *)
Inductive item :=
| Elem (n : bytes) (attrs : list (bytes * bytes)) (inner : bytes) (kids : list item)
| Text (t : bytes)
| Other.
Inductive content : list item -> bytes -> Prop :=
| co_nil : content [] []
| co_elem n a t w1 x kids w2 l s : tag_name n -> attributes a t -> stops t -> blank w1 -> blank w2 ->
    content kids x -> content l s ->
    content (Elem n a x kids :: l) (60 :: n ++ t ++ w1 ++ 62 :: x ++ 60 :: 47 :: n ++ w2 ++ 62 :: s)
| co_empty n a t w l s : tag_name n -> attributes a t -> stops t -> blank w -> content l s ->
    content (Elem n a [] [] :: l) (60 :: n ++ t ++ w ++ 47 :: 62 :: s)
| co_text x d l s : chardata x d -> (s = [] \/ prefix [60] s) -> content l s -> content (Text d :: l) (x ++ s)
| co_cdata x d l s : cdata x d -> content l s -> content (Text d :: l) (x ++ s)
| co_other x l s : comment x \/ instruction x \/ directive x -> content l s -> content (Other :: l) (x ++ s).

(** The local part of a name (Namespaces in XML 1.0). *)
Definition local_name (n l : bytes) : Prop :=
  (exists p, n = p ++ 58 :: l /\ p <> [] /\ l <> [] /\ ~ In 58 p /\ ~ In 58 l) \/
  (l = n /\ forall p r, n = p ++ 58 :: r -> p = [] \/ r = [] \/ In 58 p \/ In 58 r).
(** The trees with local names. *)
Inductive shows : list item -> list xtree -> Prop :=
| sh_nil : shows [] []
| sh_elem n n' a a' x k k' l l' : local_name n n' ->
    Forall2 (fun u v => local_name (fst u) (fst v) /\ snd u = snd v) a a' -> shows k k' -> shows l l' ->
    shows (Elem n a x k :: l) (Node n' a' k' :: l')
| sh_text t l l' : shows l l' -> shows (Text t :: l) (Txt t :: l')
| sh_other l l' : shows l l' -> shows (Other :: l) (Misc :: l').
Definition xml_text (s : bytes) (t : list xtree) : Prop := exists l, content l s /\ shows l t.

(** A text that breaks off inside its first element of one of these names:
    there is its start tag, but not all of what follows up to the end of its
    end tag. *)
Definition cut_off (names : list bytes) (s : bytes) : Prop :=
  exists l u tl n n' a t w k x w2 y v,
    s = u ++ 60 :: n ++ t ++ w ++ 62 :: y /\ content l u /\ shows l tl /\ free names (stream tl) /\
    tag_name n /\ local_name n n' /\ In n' names /\ attributes a t /\ stops t /\ blank w /\ blank w2 /\ content k x /\
    y ++ v = x ++ 60 :: 47 :: n ++ w2 ++ [62] /\ v <> [].

(** [docs] tells for an address what the text served there contains: [None] if
    there is none or if it breaks off. *)
Definition serves_text (get : bytes -> option bytes) (docs : bytes -> option doc) (u : bytes) : Prop :=
  match get u with
  | None => docs u = None
  | Some s => (exists t p w, xml_text s t /\ update_doc (stream t) p w /\ docs u = Some (p, w)) \/
              (cut_off update_names s /\ docs u = None)
  end.
End Grammar.
