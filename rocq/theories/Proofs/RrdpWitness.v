(** Concrete updates, and consequences of [fetch_done]. *)
From Coq Require Import String Lia.
From Verif.Model Require Import Base Str Tal Base64 Paths Cache Rrdp.
From Verif.Spec Require Import B64 PathSpec RrdpSpec.
From Verif.Proofs Require Import StrProofs Base64Proofs RrdpProofs RrdpCrash RrdpThm.

(** A callback that records its calls. *)
Definition record (e : event) (s : list event) : list event * verdict := (s ++ [e], VOk).
Definition refuse_withdraw (e : event) (s : list event) : list event * verdict :=
  (s ++ [e], if e_withdraw e then VErr else VOk).

Definition wrap_doc : doc := ([(str "rsync://h/m/a.cer", str "aGVsbG8=")], []).
Definition wrap_notif : notif := mkNotif (str "s") (- 2 ^ 63) (str "https://r/snap.xml") [(- 2 ^ 63, str "https://r/d")].

Lemma wrap_run :
  plain_notif wrap_notif /\
  exists es, fetch_rrdp (list event) record (fun _ => None) (fun _ _ => Some wrap_doc) (Some wrap_notif) (str "s") (2 ^ 63 - 1) []
    = (es, Done (str "s") (- 2 ^ 63)) /\ es <> [].
Proof.
  split.
  - split; [unfold int64; cbn; lia|split; [|cbn; lia]]. intros k u [H|[]]. injection H as <- _. unfold int64. lia.
  - eexists. split; [vm_compute; reflexivity|discriminate].
Qed.

Definition ex_notif : notif := mkNotif (str "s") 9 (str "https://r/snap.xml")
  [(9, str "https://r/9.xml"); (8, str "https://r/8.xml"); (7, str "https://r/7.xml")].
Definition new_session : notif := mkNotif (str "t") 1 (str "https://r/snap.xml") [].
Definition ex_snap (u : bytes) : option doc :=
  if beq u (str "https://r/snap.xml") then Some ([(str "rsync://h/m/a.cer", str "aGVsbG8=")], []) else None.
Definition ex_delta (k : Z) (u : bytes) : option doc :=
  if k =? 8 then Some ([(str "rsync://h/m/a.cer", str "aGVs bG8=")], [(str "rsync://h/m/b.roa", [])])
  else if k =? 9 then Some ([(str "rsync://h/m/c.crl", str "aGVsbG8=")], []) else None.
Definition ex_delta2 (k : Z) (u : bytes) : option doc :=
  if k =? 8 then Some ([(str "rsync://h/m/x.roa", str "aGVsbG8=")], [])
  else if k =? 9 then Some ([], [(str "rsync://h/m/x.roa", [])]) else None.
Definition cache_base : bytes := str "/c".
Definition ex_domain : bytes := str "rsync://h/".
Definition cache0 : fs := fun l => if leq l [] then Some Dir else None.
Definition ex_place : loc := map str ["c"; "h"; "m"; "x.roa"]%string.

Lemma ex_run :
  plain_notif ex_notif /\ plain_serial 7 /\ ~ needs_snapshot ex_notif (str "s") 7 /\
  fetch_rrdp (list event) record ex_snap ex_delta (Some ex_notif) (str "s") 7 [] =
    ([mkEvent (str "https://r/snap.xml") (str "rsync://h/m/a.cer") (str "hello") false false 8;
      mkEvent (str "https://r/snap.xml") (str "rsync://h/m/b.roa") [] true false 8;
      mkEvent (str "https://r/snap.xml") (str "rsync://h/m/c.crl") (str "hello") false false 9],
     Done (str "s") 9) /\
  fetch_rrdp (list event) record ex_snap ex_delta (Some ex_notif) (str "old") 7 [] =
    ([mkEvent (str "https://r/snap.xml") (str "rsync://h/m/a.cer") (str "hello") false true 9],
     Done (str "s") 9).
Proof.
  split; [|split; [unfold plain_serial; lia|split; [|split; vm_compute; reflexivity]]].
  - split; [unfold int64; cbn; lia|split; [|cbn; lia]].
    intros k u [H|[H|[H|[]]]]; injection H as <- _; unfold int64; lia.
  - intros [H|[H|(k & H & N)]]; [discriminate|apply H; reflexivity|]. apply N. cbn in H.
    assert (C : k = 7 \/ k = 8 \/ k = 9) by lia. unfold has_delta, ex_notif. cbn [n_deltas].
    destruct C as [C|[C|C]]; subst k; eexists; cbn [In]; eauto.
Qed.

Lemma refuse_run :
  exists s', fetch_rrdp (list event) refuse_withdraw ex_snap ex_delta (Some ex_notif) (str "s") 7 [] = (s', Done (str "s") 9) /\
  exists e s1, In e s' /\ snd (refuse_withdraw e s1) = VErr.
Proof.
  eexists. split; [vm_compute; reflexivity|]. eexists. exists []. split; [right; left; reflexivity|]. reflexivity.
Qed.

Lemma new_session_run :
  exists s' s1, interrupted [] cache_base ex_domain ex_snap ex_delta2 (Some ex_notif) (str "s") 7 cache0 s' /\
  fetch_rrdp fs (octo_cb [] cache_base ex_domain) ex_snap ex_delta2 (Some ex_notif) (str "s") 7 cache0 = (s1, Done (str "s") 9) /\
  let again x := fst (fetch_rrdp fs (octo_cb [] cache_base ex_domain) ex_snap ex_delta2 (Some new_session) (str "s") 7 x) in
  again s' ex_place = Some (File (str "hello")) /\ again s1 ex_place = Some (File []).
Proof.
  eexists. eexists. split; [eapply (int_more _ _ _ _ _ _ _ _ _ _ None 5%nat); apply int_start|].
  split; [|split].
  - match goal with |- ?x = _ => rewrite (surjective_pairing x) end. f_equal; vm_compute; reflexivity.
  - vm_compute. reflexivity.
  - vm_compute. reflexivity.
Qed.

Lemma announces_at : forall n k u, announces n k u -> delta_at (n_deltas n) k = Some u.
Proof.
  intros n k u (a & b & E & N). rewrite E. clear E. induction a as [|[k' v] a IH]; cbn [app delta_at].
  - apply delta_at_none in N. rewrite N, Z.eqb_refl. reflexivity.
  - rewrite IH. reflexivity.
Qed.

Section Fetch.
Variable St : Type.
Variable cb : event -> St -> St * verdict.
Variable snap : bytes -> option doc.
Variable delta : Z -> bytes -> option doc.
Notation fetch := (fetch_rrdp St cb snap delta).

Lemma state_complete : forall n ls last s s' o,
  plain_notif n -> plain_serial last -> fetch (Some n) ls last s = (s', o) ->
  stored_after (ls, last) o = (ls, last) \/
  exists es, plays cb s es s' /\ (snapshot_events n snap es \/ update_events n delta last es) /\
    stored_after (ls, last) o = (n_session n, Z.max (snd (stored_after (ls, last) o)) (n_serial n)).
Proof.
  intros n ls last s s' o Hn Hl E. destruct o as [a b| | |]; try (left; reflexivity). right.
  destruct (fetch_done St cb snap delta n ls last s s' a b Hn Hl E) as (es & P & -> & C).
  exists es. split; [exact P|]. cbn [stored_after snd].
  destruct C as [(S & -> & _)|(_ & U & ->)]; (split; [auto|f_equal; lia]).
Qed.

Lemma plays_withdraws : forall s es s', (forall e s, e_withdraw e = false -> snd (cb e s) <> VOk) ->
  plays cb s es s' -> Forall (fun e => e_withdraw e = true) es.
Proof.
  intros s es s' H. induction 1 as [|s e s1 v es s' E T P IH]; constructor; [|exact IH].
  destruct T as [->|(_ & W & _)]; [|exact W]. destruct (e_withdraw e) eqn:W; [reflexivity|].
  exfalso. apply (H e s W). rewrite E. reflexivity.
Qed.

Lemma doc_withdraws : forall mk d es, (forall u x, e_withdraw (mk false u x) = false) ->
  doc_events mk d es -> Forall (fun e => e_withdraw e = true) es -> fst d = [].
Proof.
  intros mk d es M (p & w & Fp & Fw & ->) F. apply Forall_app in F. destruct F as [F _].
  destruct Fp as [|x e l p (y & _ & ->) Fp]; [reflexivity|]. inversion F as [|? ? G]; subst.
  rewrite M in G. discriminate.
Qed.

Lemma failed_file : forall n ls last s s' a b,
  (forall e s, e_withdraw e = false -> snd (cb e s) <> VOk) ->
  plain_notif n -> plain_serial last ->
  fetch (Some n) ls last s = (s', Done a b) ->
  (exists ws, snap (n_snapshot n) = Some ([], ws)) \/
  (forall k u, last < k <= n_serial n -> announces n k u -> exists ws, delta k u = Some ([], ws)).
Proof.
  intros n ls last s s' a b H Hn Hl E.
  destruct (fetch_done St cb snap delta n ls last s s' a b Hn Hl E) as (es & P & -> & C).
  apply plays_withdraws in P; [|exact H].
  destruct C as [((d & Ed & De) & _)|(_ & (ess & F & ->) & _)].
  - left. apply doc_withdraws in De; [|reflexivity|exact P]. destruct d as [d1 ws]. cbn in De. subst d1. exists ws. exact Ed.
  - right. intros k u Hk Ku.
    assert (I : In k (serials last (n_serial n))) by (apply serials_in; lia).
    revert P I. clear -F Ku. induction F as [|k0 es0 ks ess D F IH]; intros P I; [destruct I|].
    cbn [concat] in P. apply Forall_app in P. destruct P as [P0 P].
    destruct I as [->|I]; [|auto]. destruct D as (u' & d & A & Ed & De).
    assert (u' = u).
    { apply announces_at in A, Ku. congruence. }
    subst u'. apply doc_withdraws in De; [|reflexivity|exact P0]. destruct d as [d1 ws]. cbn in De. subst d1. exists ws. exact Ed.
Qed.
End Fetch.
