(** Updates from RRDP documents. *)
From Coq Require Import Lia Bool String.
From Verif.Model Require Import Base Str NetText Paths Cache Rrdp RrdpXml.
From Verif.Spec Require Import RrdpSpec XmlSpec.
From Verif.Proofs Require Import StrProofs RrdpProofs XmlProofs.

Lemma served : forall get docs u, serves get docs u -> get_as parse_node get u = docs u.
Proof.
  intros get docs u H. unfold serves in H. unfold get_as. destruct (get u) as [l|]; [|now symmetry].
  destruct H as [(p & w & D & ->)|(D & ->)].
  - now rewrite (update_read _ _ _ D).
  - now rewrite (broken_read _ D).
Qed.

Lemma listed_int64 : forall k l, listed k l -> forall x u, In (x, u) l -> int64 x.
Proof.
  induction 1 as [|a k x n u r l H1 H2 H3 H4 H5 IH|m a k r l N H IH|t r l H IH|r l H IH]; intros y v I; try now destruct I.
  - destruct I as [E|I]; [|now apply (IH y v)]. apply (f_equal fst) in E. cbn [fst] in E. subst y.
    destruct H2 as [_ B]. unfold int64. lia.
  - now apply (IH y v).
  - now apply (IH y v).
  - now apply (IH y v).
Qed.

Lemma doc_plain : forall l n, notification_doc l n -> Z.of_nat (length (n_deltas n)) < 2 ^ 62 -> plain_notif n.
Proof.
  intros l n (before & a & k & after & k1 & sa & sk & k2 & x & _ & _ & _ & _ & _ & (_ & B) & _ & _ & _ & _ & _ & HL) L.
  split; [unfold int64; lia|]. split; [|exact L]. exact (listed_int64 _ _ HL).
Qed.

Section Fetch.
Context {St : Type}.
Variable cb : event -> St -> St * verdict.
Variable get : bytes -> option (list xtok).

Lemma root_got : forall path l n, get path = Some l -> notification_doc l n -> get_as parse_root get path = Some n.
Proof using All. intros path l n E D. unfold get_as. now rewrite E, (notification_read _ _ D). Qed.

Theorem xml_update : forall docs path l n ls last s s' a b,
  get path = Some l -> notification_doc l n -> Z.of_nat (length (n_deltas n)) < 2 ^ 62 -> plain_serial last ->
  (forall u, linked n u -> serves get docs u) ->
  fetch_xml cb get path ls last s = (s', Done a b) ->
  exists es, plays cb s es s' /\ a = n_session n /\
    ((snapshot_events n docs es /\ b = n_serial n /\ (needs_snapshot n ls last \/ n_serial n = 2 ^ 63 - 1)) \/
     (~ needs_snapshot n ls last /\ update_events n (fun _ => docs) last es /\ b = Z.max last (n_serial n))).
Proof using All.
  intros docs path l n ls last s s' a b E D L P S H. unfold fetch_xml in H. rewrite (root_got _ _ _ E D) in H.
  apply fetch_done in H; [|exact (doc_plain _ _ D L)|exact P].
  destruct H as (es & HP & -> & [(A & B & C)|(A & B & C)]); exists es; (split; [exact HP|]); (split; [reflexivity|]).
  - left. split; [|now split]. destruct A as (d & A & X). exists d. split; [|exact X].
    rewrite <- A. symmetry. apply served, S. now left.
  - right. split; [exact A|]. split; [|exact C]. destruct B as (ess & F & ->). exists ess. split; [|reflexivity].
    clear A C HP P. induction F as [|k es1 ks ess0 HD F IH]; constructor; [|exact IH].
    destruct HD as (u & d & HA & HG & HE). exists u, d. split; [exact HA|]. split; [|exact HE].
    rewrite <- HG. symmetry. apply served, S. right. destruct HA as (x & y & EQ & _). exists k. rewrite EQ.
    apply in_or_app. right. now left.
Qed.

Theorem xml_broken_root : forall path l ls last s, get path = Some l -> broken_in [str "notification"] l ->
  fetch_xml cb get path ls last s = (s, Failed).
Proof using All. intros path l ls last s E B. unfold fetch_xml, get_as. now rewrite E, (root_broken _ B). Qed.

Lemma xml_snapshot : forall path l n ls last s, get path = Some l -> notification_doc l n ->
  Z.of_nat (length (n_deltas n)) < 2 ^ 62 -> plain_serial last -> needs_snapshot n ls last ->
  fetch_xml cb get path ls last s = snapshot_run St cb (get_as parse_node get) n s.
Proof using All.
  intros path l n ls last s E D L P N. unfold fetch_xml. rewrite (root_got _ _ _ E D).
  destruct (fetch_cases St cb (get_as parse_node get) (fun _ => get_as parse_node get) n ls last s (doc_plain _ _ D L) P)
    as [(-> & _)|(C & _)]; [reflexivity|contradiction].
Qed.

Theorem xml_broken_snapshot : forall path l n lu ls last s, get path = Some l -> notification_doc l n ->
  Z.of_nat (length (n_deltas n)) < 2 ^ 62 -> plain_serial last -> needs_snapshot n ls last ->
  get (n_snapshot n) = Some lu -> broken_in update_names lu ->
  fetch_xml cb get path ls last s = (s, Failed).
Proof using All.
  intros path l n lu ls last s E D L P N G B. rewrite (xml_snapshot _ _ _ _ _ _ E D L P N).
  unfold snapshot_run, get_as. now rewrite G, (broken_read _ B).
Qed.

Theorem xml_foreign : forall path l n lu ls last s, get path = Some l -> notification_doc l n ->
  Z.of_nat (length (n_deltas n)) < 2 ^ 62 -> plain_serial last -> needs_snapshot n ls last ->
  get (n_snapshot n) = Some lu -> free update_names lu ->
  fetch_xml cb get path ls last s = (s, Done (n_session n) (n_serial n)).
Proof using All.
  intros path l n lu ls last s E D L P N G B. rewrite (xml_snapshot _ _ _ _ _ _ E D L P N).
  unfold snapshot_run, get_as. rewrite G, (foreign_read _ B). reflexivity.
Qed.

(** A foreign document instead of the notification: the empty address is asked
    for a snapshot. *)
Theorem xml_no_notification : forall path l ls last s, get path = Some l -> free [str "notification"] l ->
  get [] = None -> ls <> [] \/ last = 0 -> plain_serial last -> fetch_xml cb get path ls last s = (s, Failed).
Proof using All.
  intros path l ls last s E F G N P. unfold fetch_xml. unfold get_as at 3. rewrite E, (root_foreign _ F). cbn [of_xres].
  destruct (fetch_cases St cb (get_as parse_node get) (fun _ => get_as parse_node get) (mkNotif [] 0 [] []) ls last s)
    as [(-> & _)|(C & _)].
  - split; [unfold int64; cbn; lia|]. split; [|cbn; lia]. intros k u [].
  - exact P.
  - unfold snapshot_run, get_as. cbn [n_snapshot]. now rewrite G.
  - exfalso. apply C. destruct N as [N| ->]; [right; left; exact N|now left].
Qed.
End Fetch.

(** ** A run *)
Definition x_attr (k v : string) : bytes * bytes := (str k, str v).
Definition x_top : list (bytes * bytes) :=
  [x_attr "xmlns" "http://www.ripe.net/rpki/rrdp"; x_attr "version" "1"; x_attr "session_id" "s"; x_attr "serial" "9"].
Definition x_parts : list xtree :=
    [Node (str "snapshot") [x_attr "uri" "https://r/snap.xml"; x_attr "hash" "00"] []; Misc;
     Node (str "delta") [x_attr "serial" "9"; x_attr "uri" "https://r/9.xml"; x_attr "hash" "00"] [];
     Txt (str " ");
     Node (str "delta") [x_attr "serial" "8"; x_attr "uri" "https://r/8.xml"; x_attr "hash" "00"] []].
Definition x_notification : list xtok :=
  XOther :: XText (str " ") :: tokens (Node (str "notification") x_top x_parts).
Definition x_notif : notif :=
  mkNotif (str "s") 9 (str "https://r/snap.xml") [(9, str "https://r/9.xml"); (8, str "https://r/8.xml")].
Definition x_snap : list (bytes * bytes) := [x_attr "session_id" "s"; x_attr "serial" "9"].
Definition x_files : list xtree :=
    [Txt (str " "); Node (str "publish") [x_attr "uri" "rsync://h/m/a.cer"] [Txt (str "aGVs"); Misc; Txt (str "bG8=")];
     Node (str "extra") [] [Node (str "publish") [x_attr "uri" "rsync://h/m/b.cer"] []]].
Definition x_snapshot : list xtok := XOther :: tokens (Node (str "snapshot") x_snap x_files).
Definition x_delta : list xtok :=
  tokens (Node (str "delta") [x_attr "session_id" "other"; x_attr "serial" "3"]
    [Node (str "publish") [x_attr "uri" "rsync://h/m/a.cer"] [Txt (str "aGVsbG8=")];
     Node (str "withdraw") [x_attr "uri" "rsync://h/m/c.cer"] []]).
Definition x_get (second : list xtok) (u : bytes) : option (list xtok) :=
  if beq u (str "https://r/n.xml") then Some x_notification
  else if beq u (str "https://r/snap.xml") then Some second else None.
Definition x_record (e : event) (s : list event) : list event * verdict := (s ++ [e], VOk).

Ltac no_start := intros n a I; cbn [In] in I; repeat (destruct I as [I|I]; [discriminate I|]); destruct I.
Ltac no_attr := let I := fresh in intros I; vm_compute in I; repeat (destruct I as [I|I]; [discriminate I|]); destruct I.
Ltac serial_ok n := let x := fresh in let I := fresh in intros x I; exists n;
  vm_compute in I;
  repeat (destruct I as [I|I];
          [first [discriminate I|apply (f_equal snd) in I; cbn [snd] in I; subst x; split; [reflexivity|lia]]|]);
  destruct I.

Lemma x_notification_ok : notification_doc x_notification x_notif.
Proof.
  exists [XOther; XText (str " ")], x_top, x_parts, [], []. eexists _, _, _, (str "9"). split; [reflexivity|].
  split; [no_start|]. split; [no_start|].
  split; [left; eexists [_; _], [_]; split; [reflexivity|no_attr]|].
  split; [left; eexists [_; _; _], []; split; [reflexivity|no_attr]|].
  split; [split; [reflexivity|cbn; lia]|]. split; [serial_ok 9|]. split; [reflexivity|].
  split; [intros b y I; vm_compute in I; repeat (destruct I as [I|I]; [discriminate I|]); destruct I|].
  split; [serial_ok 0|].
  split; [left; eexists [], [_]; split; [reflexivity|no_attr]|].
  apply li_other; [discriminate|]. apply li_misc.
  apply (li_delta _ _ (str "9") 9).
  { left. eexists [], [_; _]. split; [reflexivity|no_attr]. } { split; [reflexivity|lia]. } { serial_ok 9. }
  { left. eexists [_], [_]. split; [reflexivity|no_attr]. }
  apply li_text. apply (li_delta _ _ (str "8") 8).
  { left. eexists [], [_; _]. split; [reflexivity|no_attr]. } { split; [reflexivity|lia]. } { serial_ok 8. }
  { left. eexists [_], [_]. split; [reflexivity|no_attr]. }
  constructor.
Qed.

Lemma x_snapshot_ok : update_doc x_snapshot [(str "rsync://h/m/a.cer", str "aGVsbG8=")] [].
Proof.
  exists [XOther], (str "snapshot"), x_snap, x_files, []. split; [reflexivity|]. split; [right; now left|].
  split; [no_start|]. split; [no_start|]. split; [serial_ok 9|]. split.
  - apply els_text. apply (els_here _ _ [Txt (str "aGVs"); Misc; Txt (str "bG8=")]).
    + left. eexists [], []. split; [reflexivity|no_attr].
    + apply els_other; [discriminate|]. constructor.
  - apply els_text. apply els_other; [discriminate|]. apply els_other; [discriminate|]. constructor.
Qed.

Lemma x_cut_broken : broken_in update_names (firstn 5 x_snapshot).
Proof.
  exists [XOther], (str "snapshot"), x_snap, x_files, (skipn 2 (firstn 5 x_snapshot)), (skipn 5 x_snapshot).
  split; [reflexivity|]. split; [right; now left|]. split; [no_start|]. split; [reflexivity|discriminate].
Qed.

Lemma x_runs :
  fetch_xml x_record (x_get x_snapshot) (str "https://r/n.xml") [] 0 [] =
    ([mkEvent (str "https://r/snap.xml") (str "rsync://h/m/a.cer") (str "hello") false true 9], Done (str "s") 9) /\
  fetch_xml x_record (x_get (firstn 5 x_snapshot)) (str "https://r/n.xml") [] 0 [] = ([], Failed) /\
  fetch_xml x_record (x_get []) (str "https://r/n.xml") [] 0 [] = ([], Done (str "s") 9).
Proof. repeat split; vm_compute; reflexivity. Qed.

(** A delta of another session and serial as the snapshot. *)
Lemma x_wrong_kind :
  fetch_xml x_record (x_get x_delta) (str "https://r/n.xml") [] 0 [] =
    ([mkEvent (str "https://r/snap.xml") (str "rsync://h/m/a.cer") (str "hello") false true 9;
      mkEvent (str "https://r/snap.xml") (str "rsync://h/m/c.cer") [] true true 9], Done (str "s") 9).
Proof. vm_compute. reflexivity. Qed.

(** Two documents in one: what the first one publishes is delivered twice. *)
Lemma x_twice :
  fetch_xml x_record (x_get (x_snapshot ++ tokens (Node (str "snapshot") [] []))) (str "https://r/n.xml") [] 0 [] =
    ([mkEvent (str "https://r/snap.xml") (str "rsync://h/m/a.cer") (str "hello") false true 9;
      mkEvent (str "https://r/snap.xml") (str "rsync://h/m/a.cer") (str "hello") false true 9], Done (str "s") 9).
Proof. vm_compute. reflexivity. Qed.
