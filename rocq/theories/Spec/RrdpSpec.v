(** What an RRDP update has to deliver (RFC 8182, section 3.4), without
    reference to the loops of the program. *)
From Coq Require Import List ZArith.
From Verif.Model Require Import Base Str Paths Cache Rrdp.
From Verif.Spec Require Import B64.
Import ListNotations.
Open Scope Z_scope.

Definition int64 (x : Z) : Prop := - 2 ^ 63 <= x < 2 ^ 63.

Definition has_delta (n : notif) (k : Z) : Prop := exists u, In (k, u) (n_deltas n).

(** The last entry for serial [k] has address [u]. *)
Definition announces (n : notif) (k : Z) (u : bytes) : Prop :=
  exists a b, n_deltas n = a ++ (k, u) :: b /\ forall v, ~ In (k, v) b.

(** No serial stored, another session, or a delta missing. *)
Definition needs_snapshot (n : notif) (session : bytes) (last : Z) : Prop :=
  last = 0 \/ session <> n_session n \/
  exists k, last <= k <= n_serial n /\ ~ has_delta n k.

(** The callback events of an element, of a document. *)
Definition elem_event (mk : bytes -> bytes -> event) (x : elem) (e : event) : Prop :=
  exists d, b64_text (strip (snd x)) d /\ e = mk (fst x) d.
Definition doc_events (mk : bool -> bytes -> bytes -> event) (d : doc) (es : list event) : Prop :=
  exists p w, Forall2 (elem_event (mk false)) (fst d) p /\
              Forall2 (elem_event (mk true)) (snd d) w /\ es = p ++ w.

Definition snapshot_events (n : notif) (snap : bytes -> option doc) (es : list event) : Prop :=
  exists d, snap (n_snapshot n) = Some d /\
    doc_events (fun w p x => mkEvent (n_snapshot n) p x w true (n_serial n)) d es.

Definition delta_events (n : notif) (delta : Z -> bytes -> option doc) (k : Z) (es : list event) : Prop :=
  exists u d, announces n k u /\ delta k u = Some d /\
    doc_events (fun w p x => mkEvent (n_snapshot n) p x w false k) d es.

(** [last+1, ..., cur] *)
Definition serials (last cur : Z) : list Z :=
  map (fun i => last + 1 + Z.of_nat i) (seq 0 (Z.to_nat (cur - last))).

(** The deltas after [last], each once, in increasing order. *)
Definition update_events (n : notif) (delta : Z -> bytes -> option doc) (last : Z) (es : list event) : Prop :=
  exists ess, Forall2 (delta_events n delta) (serials last (n_serial n)) ess /\ es = concat ess.

(** Results that let an update succeed: everything worked; but errors when
    removing a file in a delta do not count. *)
Definition tolerated (e : event) (v : verdict) : Prop :=
  v = VOk \/ (v = VErr /\ e_withdraw e = true /\ e_snapshot e = false).

(** The callback is called for these events, in this order, and leads from one
    state to the other.  A state may contain a record of all calls. *)
Inductive plays {St} (cb : event -> St -> St * verdict) : St -> list event -> St -> Prop :=
| plays_nil s : plays cb s [] s
| plays_cons s e s1 v es s' :
    cb e s = (s1, v) -> tolerated e v -> plays cb s1 es s' -> plays cb s (e :: es) s'.

Definition plain_notif (n : notif) : Prop :=
  int64 (n_serial n) /\ (forall k u, In (k, u) (n_deltas n) -> int64 k) /\
  Z.of_nat (length (n_deltas n)) < 2 ^ 62.

(** A stored serial below the largest one. *)
Definition plain_serial (last : Z) : Prop := - 2 ^ 63 <= last < 2 ^ 63 - 1.

(** States the cache can be in after any number of updates each of which was
    interrupted at some point, the saved session and serial being [ls] and
    [last] every time. *)
Inductive interrupted (cwd : loc) (base domain : bytes) (snap : bytes -> option doc)
  (delta : Z -> bytes -> option doc) (root : option notif) (ls : bytes) (last : Z) (s : fs) : fs -> Prop :=
| int_start : interrupted cwd base domain snap delta root ls last s s
| int_more s1 g k : interrupted cwd base domain snap delta root ls last s s1 ->
    interrupted cwd base domain snap delta root ls last s
      (fst (fst (fetch_rrdp (fs * nat) (crash_cb g cwd base domain) snap delta root ls last (s1, k)))).
