(** The state of RRDP in its file, and the list of ROAs as text. *)
From Coq Require Import List ZArith String.
From Verif.Model Require Import Base Str Der Json Output StateFile.
From Verif.Spec Require Import JsonSpec.
Import ListNotations.
Open Scope Z_scope.

(** A state whose texts are Unicode, with one entry for an address and serial
    numbers of 64 bits. *)
Definition good_info (i : rrdp_info) : Prop :=
  unicode (ri_rsync i) /\ unicode (ri_path i) /\ unicode (ri_session i) /\ - 2 ^ 63 <= ri_serial i < 2 ^ 63.
Definition good_state (m : list (bytes * rrdp_info)) : Prop :=
  NoDup (map fst m) /\ forall k i, In (k, i) m -> unicode k /\ good_info i.

(** [written_short p s]: the writing of [s] stopped before the end. *)
Definition written_short (p s : bytes) : Prop := exists x, x <> [] /\ s = p ++ x.

(** The members of an object. *)
Definition has (o : json) (k : string) (v : json) : Prop :=
  exists l, o = JObj l /\ In (str k, v) l /\ (forall v', In (str k, v') l -> v' = v).
Definition lacks (o : json) (k : string) : Prop := exists l, o = JObj l /\ forall v, ~ In (str k, v) l.
(** [writes z t]: the number [z] in decimal digits. *)
Definition value_of (d : bytes) : Z := fold_left (fun a c => a * 10 + (c - 48)) d 0.
Definition writes (z : Z) (v : json) : Prop :=
  exists t, v = JNum t /\ ((digits t /\ z = value_of t) \/ (exists d, t = 45 :: d /\ digits d /\ z = - value_of d)).
(** One entry of the list, and the data about the list. *)
Definition shows_entry (r : roajson) (v : json) : Prop :=
  has v "prefix" (JStr (j_prefix r)) /\ has v "asn" (JStr (j_asn r)) /\
  (exists n, has v "maxLength" n /\ writes (j_len r) n) /\
  ((j_ta r = [] /\ lacks v "ta") \/ has v "ta" (JStr (j_ta r))).
Definition shows_meta (m : meta) (v : json) : Prop :=
  (exists n, has v "counts" n /\ writes (m_counts m) n) /\
  (exists n, has v "generated" n /\ writes (m_generated m) n) /\
  ((m_valid m = 0 /\ lacks v "valid") \/ exists n, has v "valid" n /\ writes (m_valid m) n) /\
  ((m_sign m = [] /\ lacks v "signature") \/ has v "signature" (JStr (m_sign m))) /\
  ((m_signdate m = [] /\ lacks v "signatureDate") \/ has v "signatureDate" (JStr (m_signdate m))).
Definition shows_list (l : roalist) (v : json) : Prop :=
  (exists mv, has v "metadata" mv /\ shows_meta (l_meta l) mv) /\
  (exists es, has v "roas" (JArr es) /\ Forall2 shows_entry (l_data l) es).

(** Texts in ASCII, and lists whose texts are Unicode. *)
Definition ascii (s : bytes) : Prop := Forall (fun c => 0 <= c < 128) s.
Definition good_list (l : roalist) : Prop :=
  unicode (m_sign (l_meta l)) /\ unicode (m_signdate (l_meta l)) /\
  Forall (fun r => unicode (j_prefix r) /\ unicode (j_asn r) /\ unicode (j_ta r)) (l_data l).

(** What a document means as a state.  Names of members are compared without
    regard to case, with the letters of Unicode that fold to s and k. *)
Inductive folds : bytes -> bytes -> Prop :=
| fo_nil : folds [] []
| fo_same c s t : ~ (65 <= c <= 90) -> folds s t -> folds (c :: s) (c :: t)
| fo_upper c s t : 97 <= c <= 122 -> folds s t -> folds (c - 32 :: s) (c :: t)
| fo_long s t : folds s t -> folds (utf8 383 ++ s) (115 :: t)
| fo_kelvin s t : folds s t -> folds (utf8 8490 ++ s) (107 :: t).
Definition named (f : string) (k : bytes) : Prop := folds k (str f).
(** A member of the given name: null stands for nothing, and the last one that
    is not null counts. *)
Definition member_is {A} (reads : json -> A -> Prop) (zero : A) (f : string) (l : list (bytes * json)) (a : A) : Prop :=
  (forall k v, In (k, v) l -> named f k -> v = JNull \/ exists b, reads v b) /\
  ((a = zero /\ forall k v, In (k, v) l -> named f k -> v = JNull) \/
   exists l1 k v l2, l = l1 ++ (k, v) :: l2 /\ named f k /\ reads v a /\ forall k' v', In (k', v') l2 -> named f k' -> v' = JNull).
Definition reads_text (v : json) (s : bytes) : Prop := v = JStr s.
Definition reads_int (v : json) (z : Z) : Prop := writes z v /\ - 2 ^ 63 <= z < 2 ^ 63.
Definition means_info (v : json) (i : rrdp_info) : Prop :=
  (v = JNull /\ i = mkInfo [] [] [] 0) \/
  exists l, v = JObj l /\ member_is reads_text [] "rsync" l (ri_rsync i) /\ member_is reads_text [] "path" l (ri_path i) /\
    member_is reads_text [] "sessionid" l (ri_session i) /\ member_is reads_int 0 "serial" l (ri_serial i).
(** [None] is a nil map. *)
Definition means_state (v : json) (m : option (list (bytes * rrdp_info))) : Prop :=
  (v = JNull /\ m = None) \/
  exists l m', v = JObj l /\ m = Some m' /\ NoDup (map fst m') /\ (forall k, In k (map fst m') <-> In k (map fst l)) /\
    (forall k x, In (k, x) l -> exists i, means_info x i) /\
    forall k i, In (k, i) m' -> exists l1 x l2, l = l1 ++ (k, x) :: l2 /\ ~ In k (map fst l2) /\ means_info x i.

(** The same entry, with the bytes replaced that are not UTF-8. *)
Definition replaced_info (i i' : rrdp_info) : Prop :=
  replaced (ri_rsync i) (ri_rsync i') /\ replaced (ri_path i) (ri_path i') /\ replaced (ri_session i) (ri_session i') /\ ri_serial i' = ri_serial i.
(** The same for the list of ROAs. *)
Definition replaced_entry (r r' : roajson) : Prop :=
  replaced (j_prefix r) (j_prefix r') /\ j_len r' = j_len r /\ replaced (j_asn r) (j_asn r') /\ replaced (j_ta r) (j_ta r').
Definition replaced_list (l l' : roalist) : Prop :=
  m_counts (l_meta l') = m_counts (l_meta l) /\ m_generated (l_meta l') = m_generated (l_meta l) /\ m_valid (l_meta l') = m_valid (l_meta l) /\
  replaced (m_sign (l_meta l)) (m_sign (l_meta l')) /\ replaced (m_signdate (l_meta l)) (m_signdate (l_meta l')) /\
  Forall2 replaced_entry (l_data l) (l_data l').
(** Texts made of any bytes. *)
Definition byte_info (i : rrdp_info) : Prop :=
  bytes_ok (ri_rsync i) = true /\ bytes_ok (ri_path i) = true /\ bytes_ok (ri_session i) = true /\ - 2 ^ 63 <= ri_serial i < 2 ^ 63.
Definition byte_list (l : roalist) : Prop :=
  bytes_ok (m_sign (l_meta l)) = true /\ bytes_ok (m_signdate (l_meta l)) = true /\
  Forall (fun r => bytes_ok (j_prefix r) = true /\ bytes_ok (j_asn r) = true /\ bytes_ok (j_ta r) = true) (l_data l).
