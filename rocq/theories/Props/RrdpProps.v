(** C31-C33: updates over RRDP. *)
From Coq Require Import String Lia.
From Verif.Model Require Import Base Str Tal Base64 Paths Cache Rrdp.
From Verif.Spec Require Import B64 PathSpec RrdpSpec.
From Verif.Proofs Require Import StrProofs Base64Proofs RrdpProofs RrdpCrash RrdpThm CacheProofs CacheThm CacheEvents RrdpWitness.

Section C31.
  Variable St : Type.
  Variable cb : event -> St -> St * verdict.
  Variable snap : bytes -> option doc.
  Variable delta : Z -> bytes -> option doc.
  Notation fetch := (fetch_rrdp St cb snap delta).

  (** C31. A successful update calls the callback for exactly the elements of
      the snapshot or exactly those of the deltas after the stored serial, in
      order, and which of the two is determined as stated.  Excluded is a
      stored serial of 2^63-1; an announced serial of 2^63-1 always leads to
      the snapshot. *)
  Theorem C31_update_partial : forall n ls last s s' a b,
    plain_notif n -> plain_serial last ->
    fetch (Some n) ls last s = (s', Done a b) ->
    exists es, plays cb s es s' /\ a = n_session n /\
      ((snapshot_events n snap es /\ b = n_serial n /\
        (needs_snapshot n ls last \/ n_serial n = 2 ^ 63 - 1)) \/
       (~ needs_snapshot n ls last /\ update_events n delta last es /\ b = Z.max last (n_serial n))).
  Proof. exact (fetch_done St cb snap delta). Qed.

  (** The loops end within the fuel given to them. *)
  Theorem C31_ends : forall root ls last s,
    (forall n, root = Some n -> plain_notif n) -> plain_serial last ->
    snd (fetch root ls last s) <> OutOfFuel.
  Proof. exact (fetch_total St cb snap delta). Qed.

  (** C32. An update that fails anywhere keeps session and serial; an update
      that stores them has delivered everything. *)
  Theorem C32_state_partial : forall n ls last s s' o,
    plain_notif n -> plain_serial last ->
    fetch (Some n) ls last s = (s', o) ->
    stored_after (ls, last) o = (ls, last) \/
    exists es, plays cb s es s' /\ (snapshot_events n snap es \/ update_events n delta last es) /\
      stored_after (ls, last) o = (n_session n, Z.max (snd (stored_after (ls, last) o)) (n_serial n)).
  Proof. exact (state_complete St cb snap delta). Qed.

  (** A callback that succeeds on nothing is never followed by success of an
      update that has something to publish. *)
  Theorem C32_failed_file : forall n ls last s s' a b,
    (forall e s, e_withdraw e = false -> snd (cb e s) <> VOk) ->
    plain_notif n -> plain_serial last ->
    fetch (Some n) ls last s = (s', Done a b) ->
    (exists ws, snap (n_snapshot n) = Some ([], ws)) \/
    (forall k u, last < k <= n_serial n -> announces n k u -> exists ws, delta k u = Some ([], ws)).
  Proof. exact (failed_file St cb snap delta). Qed.

  (** The stored serial does not describe the announced one when the server
      goes back in the same session: the update succeeds without effect. *)
  Theorem C32_rollback_refuted : forall n last s,
    plain_notif n -> plain_serial last -> last <> 0 -> n_serial n < last ->
    fetch (Some n) (n_session n) last s = (s, Done (n_session n) last).
  Proof. exact (rollback_ignored St cb snap delta). Qed.
End C31.
Print Assumptions C31_update_partial.
Print Assumptions C31_ends.
Print Assumptions C32_state_partial.
Print Assumptions C32_failed_file.
Print Assumptions C32_rollback_refuted.

(** At the largest serial the loop wraps around: from 2^63-1 to -2^63 the
    delta -2^63 is applied and reported as success. *)
Theorem C31_wraparound_refuted :
  plain_notif wrap_notif /\
  exists es, fetch_rrdp (list event) record (fun _ => None) (fun _ _ => Some wrap_doc) (Some wrap_notif) (str "s") (2 ^ 63 - 1) []
    = (es, Done (str "s") (- 2 ^ 63)) /\ es <> [].
Proof. exact wrap_run. Qed.
Print Assumptions C31_wraparound_refuted.

(** Two deltas 8 and 9 after serial 7: the callback sees them in order. *)
Example C31_example :
  plain_notif ex_notif /\ plain_serial 7 /\ ~ needs_snapshot ex_notif (str "s") 7 /\
  fetch_rrdp (list event) record ex_snap ex_delta (Some ex_notif) (str "s") 7 [] =
    ([mkEvent (str "https://r/snap.xml") (str "rsync://h/m/a.cer") (str "hello") false false 8;
      mkEvent (str "https://r/snap.xml") (str "rsync://h/m/b.roa") [] true false 8;
      mkEvent (str "https://r/snap.xml") (str "rsync://h/m/c.crl") (str "hello") false false 9],
     Done (str "s") 9) /\
  fetch_rrdp (list event) record ex_snap ex_delta (Some ex_notif) (str "old") 7 [] =
    ([mkEvent (str "https://r/snap.xml") (str "rsync://h/m/a.cer") (str "hello") false true 9],
     Done (str "s") 9).
Proof. exact ex_run. Qed.

(** C32: an error of the callback for a withdrawal in a delta is dropped. *)
Theorem C32_withdraw_error_refuted :
  exists s', fetch_rrdp (list event) refuse_withdraw ex_snap ex_delta (Some ex_notif) (str "s") 7 [] = (s', Done (str "s") 9) /\
  exists e s1, In e s' /\ snd (refuse_withdraw e s1) = VErr.
Proof. exact refuse_run. Qed.
Print Assumptions C32_withdraw_error_refuted.

(** C33. Any number of interrupted updates, each cut off at any elementary
    operation with the file then being written left with any content, followed
    by a complete one: same outcome and same cache as without interruption. *)
Theorem C33_retry : forall cwd base domain snap delta root ls last s s',
  interrupted cwd base domain snap delta root ls last s s' ->
  let fetch := fetch_rrdp fs (octo_cb cwd base domain) snap delta root ls last in
  snd (fetch s') = snd (fetch s) /\ forall l, fst (fetch s') l = fst (fetch s) l.
Proof. exact retry. Qed.
Print Assumptions C33_retry.

(** The same when the server has gone on to a later serial in the meantime. *)
Theorem C33_retry_later_partial : forall cwd base domain snap delta n n2 ls last s s' s1 a b,
  plain_notif n -> plain_notif n2 -> 0 < last -> last <= n_serial n <= n_serial n2 -> n_serial n2 < 2 ^ 63 - 1 ->
  ~ needs_snapshot n ls last -> ~ needs_snapshot n2 ls last ->
  (forall k u, last < k <= n_serial n -> announces n k u -> announces n2 k u) ->
  let fetch := fetch_rrdp fs (octo_cb cwd base domain) snap delta in
  fetch (Some n) ls last s = (s1, Done a b) ->
  interrupted cwd base domain snap delta (Some n) ls last s s' ->
  snd (fetch (Some n2) ls last s') = snd (fetch (Some n2) a b s1) /\
  forall l, fst (fetch (Some n2) ls last s') l = fst (fetch (Some n2) a b s1) l.
Proof. exact retry_later. Qed.
Print Assumptions C33_retry_later_partial.

(** It fails if the session changes in between: the file of the interrupted
    delta stays, an uninterrupted run would have emptied it. *)
Theorem C33_new_session_refuted :
  exists s' s1, interrupted [] cache_base ex_domain ex_snap ex_delta2 (Some ex_notif) (str "s") 7 cache0 s' /\
  fetch_rrdp fs (octo_cb [] cache_base ex_domain) ex_snap ex_delta2 (Some ex_notif) (str "s") 7 cache0 = (s1, Done (str "s") 9) /\
  let again x := fst (fetch_rrdp fs (octo_cb [] cache_base ex_domain) ex_snap ex_delta2 (Some new_session) (str "s") 7 x) in
  again s' ex_place = Some (File (str "hello")) /\ again s1 ex_place = Some (File []).
Proof. exact new_session_run. Qed.
Print Assumptions C33_new_session_refuted.

Example C33_example :
  let s' := fst (fst (fetch_rrdp (fs * nat) (crash_cb (Some (str "he")) [] cache_base ex_domain) ex_snap ex_delta
     (Some ex_notif) (str "s") 7 (cache0, 3%nat))) in
  s' (map str ["c"; "h"; "m"; "a.cer"]%string) = Some (File (str "he")) /\
  let fetch := fetch_rrdp fs (octo_cb [] cache_base ex_domain) ex_snap ex_delta (Some ex_notif) (str "s") 7 in
  snd (fetch s') = Done (str "s") 9 /\
  fst (fetch s') (map str ["c"; "h"; "m"; "a.cer"]%string) = Some (File (str "hello")).
Proof. vm_compute. auto. Qed.
