(** Documents as octets: a run. *)
From Coq Require Import List ZArith Lia Bool String.
From Verif.Model Require Import Base Str Der NetText Json Paths Cache Rrdp RrdpXml XmlLex.
From Verif.Spec Require Import JsonSpec RrdpSpec XmlSpec XmlTextSpec.
From Verif.Proofs Require Import StrProofs XmlLexBase XmlLexTok XmlLexTag XmlLexDoc XmlLexThm XmlLexRrdp XmlProofs XmlThm.
Import ListNotations.
Open Scope Z_scope.

Definition no_more : Z -> bool := fun _ => false.
Definition o_notification : bytes := str
  "<?xml version='1.0' encoding='UTF-8'?> <notification xmlns='http://www.ripe.net/rpki/rrdp' version='1' session_id='s' serial = '9' ><snapshot uri='https://r/snap.xml' hash='00'/><!-- the deltas --><delta serial='9' uri='https://r/9.xml' hash='00'/> <delta serial='&#56;' uri='https://r/8.xml' hash='00'></delta ></notification>".
Definition o_front : bytes := str "<?xml version='1.0'?>".
Definition o_attrs : bytes := str " session_id='s' serial='9'".
Definition o_inside : bytes := str
  " <publish uri='rsync://h/m/a.cer'>aGVs<!-- > -->bG8=</publish><extra><publish uri='rsync://h/m/b.cer'/></extra>".
Definition o_snapshot : bytes := o_front ++ str "<r:snapshot" ++ o_attrs ++ str ">" ++ o_inside ++ str "</r:snapshot>".
Definition o_ascii : bytes := str "<?xml version='1.0' encoding='us-ascii'?>" ++ o_snapshot.
Definition o_get (second : bytes) (u : bytes) : option bytes :=
  if beq u (str "https://r/n.xml") then Some o_notification
  else if beq u (str "https://r/snap.xml") then Some second else None.

Lemma o_notification_text : exists t, xml_text no_more no_more false o_notification t /\ stream t = x_notification.
Proof.
  destruct (proj1 (end_iff no_more no_more false o_notification)) as (t & H); [vm_compute; reflexivity|].
  exists t. split; [exact H|]. rewrite <- (tokens_read _ _ _ _ _ H). vm_compute. reflexivity.
Qed.
Lemma o_snapshot_text : exists t, xml_text no_more no_more false o_snapshot t /\ stream t = x_snapshot.
Proof.
  destruct (proj1 (end_iff no_more no_more false o_snapshot)) as (t & H); [vm_compute; reflexivity|].
  exists t. split; [exact H|]. rewrite <- (tokens_read _ _ _ _ _ H). vm_compute. reflexivity.
Qed.
(** Cut off inside the text of the file. *)
Definition o_part : bytes := o_front ++ str "<r:snapshot" ++ o_attrs ++ str "> <publish uri='rsync://h/m/a.cer'>aGV".
Lemma o_content : forall s, snd (lex_all no_more no_more false s) = AtEnd -> exists l, content no_more no_more false l s.
Proof. intros s H. apply end_iff in H. destruct H as (t & l & C & _). eauto. Qed.
Lemma o_part_cut : cut_off no_more no_more false update_names o_part.
Proof.
  destruct (proj1 (end_iff no_more no_more false o_front)) as (tl & H); [vm_compute; reflexivity|].
  assert (Tl : stream tl = [XOther]) by (rewrite <- (tokens_read _ _ _ _ _ H); vm_compute; reflexivity). destruct H as (l & Cl & Sh).
  destruct (o_content o_inside) as (k & Ck); [vm_compute; reflexivity|].
  destruct (read_nsname_sound no_more no_more false (str "r:snapshot ") (str "r:snapshot") (str " ")) as (_ & T & _); [vm_compute; reflexivity|].
  destruct (attrs_sound no_more no_more false 9 (o_attrs ++ str ">") [x_attr "session_id" "s"; x_attr "serial" "9"] false [])
    as (t & w & E & A & W); [vm_compute; reflexivity|].
  assert (t = o_attrs /\ w = []) as [-> ->].
  { change (o_attrs ++ str ">") with (o_attrs ++ [62]) in E. rewrite app_assoc in E. apply app_inj_tail in E. destruct E as [E _].
    destruct w as [|c w _] using rev_ind; [rewrite app_nil_r in E; auto|]. exfalso.
    rewrite app_assoc in E. change o_attrs with (str " session_id='s' serial='9" ++ [39]) in E. apply app_inj_tail in E. destruct E as [_ <-].
    apply Forall_app in W. destruct W as [_ W]. inversion W as [|? ? I _]; subst. cbn in I. lia. }
  exists l, o_front, tl, (str "r:snapshot"), (str "snapshot"), [x_attr "session_id" "s"; x_attr "serial" "9"], o_attrs, [], k, o_inside, [],
    (str " <publish uri='rsync://h/m/a.cer'>aGV"), (str "s<!-- > -->bG8=</publish><extra><publish uri='rsync://h/m/b.cer'/></extra></r:snapshot>").
  split; [reflexivity|]. split; [exact Cl|]. split; [exact Sh|]. split; [rewrite Tl; no_start|]. split; [exact T|].
  split; [exact (local_is (str "r:snapshot"))|]. split; [right; now left|]. split; [exact A|].
  split; [intros b r F; injection F as <- _; apply not_name; cbn; auto|].
  split; [constructor|]. split; [constructor|]. split; [exact Ck|]. split; [reflexivity|discriminate].
Qed.
Lemma o_runs :
  fetch_octets no_more no_more false x_record (o_get o_snapshot) (str "https://r/n.xml") [] 0 [] =
    ([mkEvent (str "https://r/snap.xml") (str "rsync://h/m/a.cer") (str "hello") false true 9], Done (str "s") 9) /\
  fetch_octets no_more no_more false x_record (o_get o_part) (str "https://r/n.xml") [] 0 [] = ([], Failed) /\
  fetch_octets no_more no_more false x_record (o_get o_ascii) (str "https://r/n.xml") [] 0 [] = ([], Done (str "s") 9).
Proof. split; [|split]; vm_compute; reflexivity. Qed.
Lemma o_ascii_declares : declares (str "encoding") (str "version='1.0' encoding='us-ascii'") (str "us-ascii") /\ ~ folded (str "us-ascii") (str "utf-8").
Proof.
  split.
  - exists (str "version='1.0' "), 39, []. split; [reflexivity|]. split; [right; reflexivity|].
    split; [intros I; vm_compute in I; repeat (destruct I as [I|I]; [discriminate I|]); destruct I|].
    intros a' b' E. change (List.length (str "version='1.0' ")) with 14%nat.
    let y := eval vm_compute in (str "version='1.0' encoding='us-ascii'") in change (str "version='1.0' encoding='us-ascii'") with y in E.
    let y := eval vm_compute in (str "encoding") in change (str "encoding") with y in E.
    do 14 (destruct a' as [|? a']; [exfalso; cbn [app] in E; discriminate E|
      cbn [app] in E; apply (f_equal (@tl Z)) in E; cbn [tl] in E; cbn [List.length]; apply le_n_S]).
    apply Nat.le_0_l.
  - intros F. inversion F as [|? ? ? ? _ F1]; subst. inversion F1 as [|? ? ? ? [E|[E _]] _]; subst; [discriminate E|lia].
Qed.
(** Several elements in a row and an attribute given twice. *)
Lemma o_several : exists t, xml_text no_more no_more false (str "<a x='1' x='2'/><b/>") t /\
  stream t = stream [Node (str "a") [x_attr "x" "1"; x_attr "x" "2"] []; Node (str "b") [] []].
Proof.
  destruct (proj1 (end_iff no_more no_more false (str "<a x='1' x='2'/><b/>"))) as (t & H); [vm_compute; reflexivity|].
  exists t. split; [exact H|]. rewrite <- (tokens_read _ _ _ _ _ H). vm_compute. reflexivity.
Qed.
