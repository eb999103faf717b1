(** RRDP documents as trees, and what they contain.  No function of the readers
    is used. *)
From Coq Require Import List ZArith String.
From Verif.Model Require Import Base Str Rrdp RrdpXml.
Import ListNotations.
Open Scope Z_scope.

Inductive xtree :=
| Node (name : bytes) (attrs : list (bytes * bytes)) (kids : list xtree)
| Txt (t : bytes)
| Misc.

(** The tokens of a tree, of a sequence of trees. *)
Fixpoint tokens (t : xtree) : list xtok :=
  match t with
  | Node n a k => XStart n a :: flat_map tokens k ++ [XEnd]
  | Txt t => [XText t]
  | Misc => [XOther]
  end.
Definition stream (l : list xtree) : list xtok := flat_map tokens l.

(** Tokens without a start tag of one of these names. *)
Definition free (names : list bytes) (l : list xtok) : Prop :=
  forall n a, In (XStart n a) l -> ~ In n names.

(** The value of an attribute: that of the last one of that name, or the
    default. *)
Definition attr_is (name : bytes) (a : list (bytes * bytes)) (default v : bytes) : Prop :=
  (exists x y, a = x ++ (name, v) :: y /\ ~ In name (map fst y)) \/ (~ In name (map fst a) /\ v = default).

(** The text directly inside an element. *)
Fixpoint direct_text (k : list xtree) : bytes :=
  match k with
  | [] => []
  | Txt t :: r => t ++ direct_text r
  | _ :: r => direct_text r
  end.

(** The elements of that name among the trees: addresses and texts. *)
Inductive elements (name : bytes) : list xtree -> list elem -> Prop :=
| els_nil : elements name [] []
| els_here a k u r l : attr_is (str "uri") a [] u -> elements name r l ->
    elements name (Node name a k :: r) ((u, direct_text k) :: l)
| els_other n a k r l : n <> name -> elements name r l -> elements name (Node n a k :: r) l
| els_text t r l : elements name r l -> elements name (Txt t :: r) l
| els_misc r l : elements name r l -> elements name (Misc :: r) l.

(** Decimal numbers, as text. *)
Definition number_text (x : bytes) (n : Z) : Prop := x = dec n /\ 0 <= n < 2 ^ 63.

(** Attribute "serial" is absent or a number. *)
Definition serial_fine (a : list (bytes * bytes)) : Prop :=
  forall x, In (str "serial", x) a -> exists n, number_text x n.

(** A snapshot or delta document: one element of such a name and no other one
    before or after it. *)
Definition update_names : list bytes := [str "delta"; str "snapshot"].
Definition update_doc (l : list xtok) (p w : list elem) : Prop :=
  exists before n a k after, l = before ++ tokens (Node n a k) ++ after /\ In n update_names /\
    free update_names before /\ free update_names after /\ serial_fine a /\
    elements (str "publish") k p /\ elements (str "withdraw") k w.

(** The deltas and the snapshot in a notification. *)
Inductive listed : list xtree -> list (Z * bytes) -> Prop :=
| li_nil : listed [] []
| li_delta a k x n u r l : attr_is (str "serial") a (dec 0) x -> number_text x n -> serial_fine a ->
    attr_is (str "uri") a [] u -> listed r l -> listed (Node (str "delta") a k :: r) ((n, u) :: l)
| li_other m a k r l : m <> str "delta" -> listed r l -> listed (Node m a k :: r) l
| li_text t r l : listed r l -> listed (Txt t :: r) l
| li_misc r l : listed r l -> listed (Misc :: r) l.
Definition notification_doc (l : list xtok) (n : notif) : Prop :=
  exists before a k after k1 sa sk k2 x, l = before ++ tokens (Node (str "notification") a k) ++ after /\
    free [str "notification"] before /\ free [str "notification"] after /\
    attr_is (str "session_id") a [] (n_session n) /\
    attr_is (str "serial") a (dec 0) x /\ number_text x (n_serial n) /\ serial_fine a /\
    k = k1 ++ Node (str "snapshot") sa sk :: k2 /\
    (forall b y, ~ In (Node (str "snapshot") b y) (k1 ++ k2)) /\ serial_fine sa /\
    attr_is (str "uri") sa [] (n_snapshot n) /\ listed k (n_deltas n).

(** [l] breaks off inside the first element of one of these names: what is
    there of it is a proper beginning. *)
Definition broken_in (names : list bytes) (l : list xtok) : Prop :=
  exists before n a k part rest, l = before ++ XStart n a :: part /\ In n names /\
    free names before /\ part ++ rest = stream k ++ [XEnd] /\ rest <> [].

(** [docs] tells for an address the contents of the document served there:
    [None] if there is none or if it breaks off. *)
Definition serves (get : bytes -> option (list xtok)) (docs : bytes -> option doc) (u : bytes) : Prop :=
  match get u with
  | None => docs u = None
  | Some l => (exists p w, update_doc l p w /\ docs u = Some (p, w)) \/ (broken_in update_names l /\ docs u = None)
  end.
Definition linked (n : notif) (u : bytes) : Prop := u = n_snapshot n \/ exists k, In (k, u) (n_deltas n).
