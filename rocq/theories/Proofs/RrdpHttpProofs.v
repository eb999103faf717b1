(** Downloads with their errors. *)
From Coq Require Import List ZArith Lia Bool String.
From Verif.Model Require Import Base Str Base64 Paths Cache Rrdp RrdpXml XmlLex RrdpHttp Pool.
From Verif.Spec Require Import RrdpSpec RrdpHttpSpec.
From Verif.Proofs Require Import StrProofs RrdpProofs XmlLexRrdp.
Import ListNotations.
Open Scope Z_scope.

Lemma get_ok : forall limit a b, get_xml limit a = inl b <-> complete limit a b.
Proof.
  intros limit a b. unfold get_xml, complete. split.
  - destruct a as [t|t|code body fails]; try discriminate.
    destruct (Z.eqb_spec code 200) as [->|]; [|discriminate].
    destruct (Z.ltb_spec limit (Z.of_nat (List.length body))); [discriminate|].
    destruct fails; [discriminate|]. intros E. injection E as <-. split; [reflexivity|lia].
  - intros [-> H]. cbn [Z.eqb Pos.eqb]. destruct (Z.ltb_spec limit (Z.of_nat (List.length b))); [lia|reflexivity].
Qed.
Lemma get_needed : forall limit a, 0 <= limit -> get_xml limit (needed limit a) = get_xml limit a.
Proof.
  intros limit a H. destruct a as [t|t|code body fails]; [reflexivity|reflexivity|]. unfold needed.
  destruct (Z.eqb_spec code 200) as [->|N].
  - destruct (Z.ltb_spec limit (Z.of_nat (List.length body))) as [L|L]; [|reflexivity].
    unfold get_xml. cbn [Z.eqb Pos.eqb]. rewrite firstn_length.
    destruct (Z.ltb_spec limit (Z.of_nat (Nat.min (Z.to_nat (limit + 1)) (List.length body)))); [|lia].
    destruct (Z.ltb_spec limit (Z.of_nat (List.length body))); [reflexivity|lia].
  - unfold get_xml. destruct (Z.eqb_spec code 200); [contradiction|reflexivity].
Qed.

Lemma fetch_other : forall path rsync inner, error_text path rsync (FFetch inner) <> too_large.
Proof.
  intros path rsync inner H. apply (f_equal (fun l => nth 0 l 0)) in H. unfold error_text in H.
  change (nth 0 too_large 0) with 104 in H.
  change (str "error fetching") with (101 :: str "rror fetching") in H. cbn [app nth] in H. discriminate H.
Qed.
Lemma get_text : forall limit a e path rsync, get_xml limit a = inr e ->
  (error_text path rsync e = too_large <->
   oversized limit a \/ exists body, a = Response 200 body (Some too_large) /\ Z.of_nat (List.length body) <= limit).
Proof.
  intros limit a e path rsync H. unfold get_xml in H. unfold oversized.
  destruct a as [t|t|code body fails].
  1,2: injection H as <-; split;
    [intros E; now apply fetch_other in E|intros [(x & y & E & _)|(x & E & _)]; discriminate E].
  destruct (Z.eqb_spec code 200) as [->|N].
  - destruct (Z.ltb_spec limit (Z.of_nat (List.length body))) as [L|L].
    + injection H as <-. split; [|reflexivity]. intros _. left. eauto.
    + destruct fails as [t|]; [|discriminate H]. injection H as <-. cbn [error_text]. split.
      * intros ->. right. eauto.
      * intros [(x & y & E & K)|(x & E & _)]; injection E; intros; subst; [lia|reflexivity].
  - injection H as <-. split; [intros E; now apply fetch_other in E|].
    intros [(x & y & E & _)|(x & E & _)]; exfalso; apply N; injection E; intros; subst; reflexivity.
Qed.
Lemma oversized_bad : forall limit a b, oversized limit a -> ~ complete limit a b.
Proof. intros limit a b (x & y & -> & H) (E & L). injection E as <- _. lia. Qed.
Lemma ext_eq : forall limit a b, (forall x, complete limit a x <-> complete limit b x) ->
  (exists x, get_xml limit a = inl x /\ get_xml limit b = inl x) \/
  exists e f, get_xml limit a = inr e /\ get_xml limit b = inr f.
Proof.
  intros limit a b H. destruct (get_xml limit a) as [x|e] eqn:A.
  - left. exists x. split; [reflexivity|]. apply get_ok, H, get_ok, A.
  - right. destruct (get_xml limit b) as [x|f] eqn:B; [|eauto].
    exfalso. apply get_ok, H, get_ok in B. congruence.
Qed.

Section Http.
Variable limit : Z.
Variables first_more second_more : Z -> bool.
Variable refuse_colons : bool.
Variable St : Type.
Variable cb : event -> St -> St * verdict.
Variable cb_text : event -> St -> bytes.
Variable bad_at : bytes -> Z.

Section Web.
Variable web : bytes -> answer.
Notation hdeliver := (hdeliver St cb cb_text bad_at).
Notation hdeliver_doc := (hdeliver_doc St cb cb_text bad_at).
Notation node := (node limit first_more second_more refuse_colons web).
Notation get_doc := (get_doc limit web).
Notation hdeltas := (hdeltas limit first_more second_more refuse_colons St cb cb_text bad_at web).
Notation hsnapshot := (hsnapshot limit first_more second_more refuse_colons St cb cb_text bad_at web).
Notation fetch_http := (fetch_http limit first_more second_more refuse_colons St cb cb_text bad_at web).
Notation parse_node_octets := (parse_node_octets first_more second_more refuse_colons).
Notation parse_root_octets := (parse_root_octets first_more second_more refuse_colons).
Notation fetch_octets := (fetch_octets first_more second_more refuse_colons).

(** ** Without the texts *)
Definition plain (r : dres) : verdict := match r with DOk => VOk | DErr _ => VErr | DExited => VFatal end.
Definition plain_end (r : hres) : outcome :=
  match r with HDone a b => Done a b | HError _ => Failed | HExited => Exited | HFuel => OutOfFuel end.
Lemma hdeliver_plain : forall mk ign l s,
  deliver St cb mk ign l s = (fst (hdeliver mk ign l s), plain (snd (hdeliver mk ign l s))).
Proof.
  intros mk ign l. induction l as [|[u t] r IH]; intros s; cbn [deliver RrdpHttp.hdeliver]; [reflexivity|].
  destruct (decode_rrdp_base64 t) as [d|]; [|reflexivity].
  destruct (cb (mk u d) s) as [s' [| |]]; [apply IH|destruct ign; [apply IH|reflexivity]|reflexivity].
Qed.
Lemma hdeliver_doc_plain : forall mk ign d s,
  deliver_doc St cb mk ign d s = (fst (hdeliver_doc mk ign d s), plain (snd (hdeliver_doc mk ign d s))).
Proof.
  intros mk ign d s. unfold deliver_doc, RrdpHttp.hdeliver_doc. rewrite hdeliver_plain.
  destruct (hdeliver (mk false) false (fst d) s) as [s' [| |]]; cbn [fst snd plain]; [apply hdeliver_plain|reflexivity|reflexivity].
Qed.

Section Get.
Variable get : bytes -> option bytes.
Hypothesis get_is : forall u b, get u = Some b <-> complete limit (web u) b.
Lemma get_cases : forall u, (exists b, get u = Some b /\ get_xml limit (web u) = inl b) \/
  (exists e, get u = None /\ get_xml limit (web u) = inr e).
Proof.
  intros u. destruct (get_xml limit (web u)) as [b|e] eqn:E.
  - left. exists b. split; [|reflexivity]. apply get_is, get_ok, E.
  - right. exists e. split; [|reflexivity]. destruct (get u) as [b|] eqn:G; [|reflexivity].
    apply get_is, get_ok in G. congruence.
Qed.
Definition tokget := (fun u => option_map (xml_tokens first_more second_more refuse_colons) (get u)).
Lemma node_plain : forall u, get_as parse_node tokget u = match node u with Got d => Some d | _ => None end /\ node u <> Fuel.
Proof.
  intros u. unfold get_as, tokget, RrdpHttp.node, RrdpHttp.get_doc.
  destruct (get_cases u) as [(b & -> & ->)|(e & -> & ->)]; cbn [option_map]; [|split; [reflexivity|discriminate]].
  unfold XmlLex.parse_node_octets.
  pose proof (proj1 (octets_end first_more second_more refuse_colons b)) as N. unfold XmlLex.parse_node_octets in N.
  destruct (parse_node _); cbn [of_xres]; split; (reflexivity || discriminate || congruence).
Qed.
Lemma root_plain : forall u, get_as parse_root tokget u = match get_doc parse_root_octets u with Got n => Some n | _ => None end /\
  get_doc parse_root_octets u <> Fuel.
Proof.
  intros u. unfold get_as, tokget, RrdpHttp.get_doc.
  destruct (get_cases u) as [(b & -> & ->)|(e & -> & ->)]; cbn [option_map]; [|split; [reflexivity|discriminate]].
  unfold XmlLex.parse_root_octets.
  pose proof (proj2 (octets_end first_more second_more refuse_colons b)) as N. unfold XmlLex.parse_root_octets in N.
  destruct (parse_root _); cbn [of_xres]; split; (reflexivity || discriminate || congruence).
Qed.
Lemma hdeltas_plain : forall fuel n last serial tmp s,
  deltas_loop St cb (fun _ => get_as parse_node tokget) fuel n last serial tmp s =
  (fst (fst (hdeltas fuel n last serial tmp s)), plain_end (snd (fst (hdeltas fuel n last serial tmp s)))).
Proof.
  induction fuel as [|f IH]; intros n last serial tmp s; cbn [deltas_loop RrdpHttp.hdeltas]; [reflexivity|].
  destruct ((serial <=? n_serial n) && (0 <? wrap64 (n_serial n - last))); [|reflexivity].
  destruct (delta_at (n_deltas n) serial) as [u|]; [|reflexivity].
  destruct (node_plain u) as [-> N]. destruct (node u) as [d|e|]; [|reflexivity|congruence].
  rewrite hdeliver_doc_plain.
  match goal with |- context [hdeliver_doc ?m ?i d s] => destruct (hdeliver_doc m i d s) as [s' [| |]] end; cbn [fst snd plain]; [|reflexivity|reflexivity].
  rewrite IH. destruct (hdeltas f n last (wrap64 (serial + 1)) serial s') as [[s2 r2] q2]. reflexivity.
Qed.
Lemma hsnapshot_plain : forall n s,
  snapshot_run St cb (get_as parse_node tokget) n s =
  (fst (fst (hsnapshot n s)), plain_end (snd (fst (hsnapshot n s)))).
Proof.
  intros n s. unfold snapshot_run, RrdpHttp.hsnapshot.
  destruct (node_plain (n_snapshot n)) as [-> N]. destruct (node (n_snapshot n)) as [d|e|]; [|reflexivity|congruence].
  rewrite hdeliver_doc_plain.
  match goal with |- context [hdeliver_doc ?m ?i d s] => destruct (hdeliver_doc m i d s) as [s' [| |]] end; reflexivity.
Qed.
Theorem fetch_plain : forall path ls last s s' r q, fetch_http path ls last s = (s', r, q) ->
  fetch_octets cb get path ls last s = (s', plain_end r).
Proof.
  intros path ls last s s' r q H. unfold XmlLex.fetch_octets, fetch_xml. fold tokget.
  unfold fetch_rrdp, RrdpHttp.fetch_http in *. destruct (root_plain path) as [-> N].
  destruct (get_doc parse_root_octets path) as [n|e|]; [|injection H as <- <- _; reflexivity|congruence].
  destruct (missing _ _ last (n_serial n)) as [m|]; [|injection H as <- <- _; reflexivity].
  destruct ((last =? 0) || negb (beq ls (n_session n)) || m).
  - rewrite hsnapshot_plain. destruct (hsnapshot n s) as [[a b] c]. injection H as <- <- _. reflexivity.
  - rewrite hdeltas_plain. destruct (hdeltas _ n last (wrap64 (last + 1)) last s) as [[a b] c]. injection H as <- <- _. reflexivity.
Qed.
End Get.

(** ** How it ends *)
Definition ok (u : bytes) : Prop := exists b, complete limit (web u) b.
Definition mild (r : hres) : Prop := forall path rsync e, r = HError e -> error_text path rsync e <> too_large.
Inductive ends : hres -> list bytes -> Prop :=
| ends_ok r q : Forall ok q -> mild r -> ends r q
| ends_bad q u e : Forall ok q -> get_xml limit (web u) = inr e -> ends (HError e) (q ++ [u]).
Lemma mild_not : forall r, (forall e, r <> HError e) -> mild r.
Proof. intros r H path rsync e E. now apply H in E. Qed.
Lemma mild_plain : forall t, t <> too_large -> mild (HError (FPlain t)).
Proof. intros t H path rsync e E. injection E as <-. exact H. Qed.
Lemma ends_cons : forall u r q, ok u -> ends r q -> ends r (u :: q).
Proof.
  intros u r q O E. destruct E as [r q F M|q v e F G].
  - apply ends_ok; [now constructor|exact M].
  - apply (ends_bad (u :: q)); [now constructor|exact G].
Qed.
Lemma schema_other : str "XML does not conform to schema" <> too_large.
Proof. intros H. vm_compute in H. discriminate H. Qed.
Lemma start_other : forall c a b, c <> 104 -> (c :: a) ++ b <> too_large.
Proof.
  intros c a b N H. apply (f_equal (fun l => nth 0 l 0)) in H. change (nth 0 too_large 0) with 104 in H.
  cbn [app nth] in H. contradiction.
Qed.
Lemma get_doc_ends : forall A (parse : bytes -> xres A) u,
  match get_doc parse u with Got _ => ok u | Bad e => ends (HError e) [u] | Fuel => ok u end.
Proof.
  intros A parse u. unfold RrdpHttp.get_doc. destruct (get_xml limit (web u)) as [b|e] eqn:G.
  - assert (ok u) as O by (exists b; now apply get_ok).
    destruct (parse b); [exact O| |exact O]. apply ends_ok; [now constructor|]. apply mild_plain, schema_other.
  - exact (ends_bad [] u e (Forall_nil _) G).
Qed.

Hypothesis quiet : forall e s, cb_text e s <> too_large.
Lemma hdeliver_text : forall mk ign l s s' t, hdeliver mk ign l s = (s', DErr t) -> t <> too_large.
Proof.
  intros mk ign l. induction l as [|[u x] r IH]; intros s s' t H; cbn [RrdpHttp.hdeliver] in H; [discriminate H|].
  destruct (decode_rrdp_base64 x) as [d|].
  - destruct (cb (mk u d) s) as [s1 [| |]]; [exact (IH _ _ _ H)| |discriminate H].
    destruct ign; [exact (IH _ _ _ H)|]. injection H as _ <-. apply quiet.
  - injection H as _ <-. exact (start_other 105 (str "llegal base64 data at input byte ") _ ltac:(discriminate)).
Qed.
Lemma hdeliver_doc_text : forall mk ign d s s' t, hdeliver_doc mk ign d s = (s', DErr t) -> t <> too_large.
Proof.
  intros mk ign d s s' t H. unfold RrdpHttp.hdeliver_doc in H.
  destruct (hdeliver (mk false) false (fst d) s) as [s1 [|t1|]] eqn:E; [exact (hdeliver_text _ _ _ _ _ _ H)| |discriminate H].
  injection H as _ <-. exact (hdeliver_text _ _ _ _ _ _ E).
Qed.
Lemma one : forall u r, ok u -> mild r -> ends r [u].
Proof. intros u r O M. apply ends_ok; [now constructor|exact M]. Qed.
Lemma hdeltas_ends : forall fuel n last serial tmp s s' r q, hdeltas fuel n last serial tmp s = (s', r, q) -> ends r q.
Proof.
  induction fuel as [|f IH]; intros n last serial tmp s s' r q H; cbn [RrdpHttp.hdeltas] in H.
  - injection H as _ <- <-. apply ends_ok; [constructor|apply mild_not; discriminate].
  - destruct ((serial <=? n_serial n) && (0 <? wrap64 (n_serial n - last))).
    2: { injection H as _ <- <-. apply ends_ok; [constructor|apply mild_not; discriminate]. }
    destruct (delta_at (n_deltas n) serial) as [u|].
    2: { injection H as _ <- <-. apply ends_ok; [constructor|]. apply mild_plain.
         exact (start_other 67 (str "ould not find delta with serial ") _ ltac:(discriminate)). }
    pose proof (get_doc_ends _ parse_node_octets u) as N. fold (node u) in N.
    destruct (node u) as [d|e|]; [|injection H as _ <- <-; exact N|injection H as _ <- <-; apply one; [exact N|apply mild_not; discriminate]].
    match goal with H : context [hdeliver_doc ?m ?i d s] |- _ => destruct (hdeliver_doc m i d s) as [s1 [|t|]] eqn:E end.
    + destruct (hdeltas f n last (wrap64 (serial + 1)) serial s1) as [[s2 r2] q2] eqn:G. injection H as _ <- <-.
      apply ends_cons; [exact N|exact (IH _ _ _ _ _ _ _ _ G)].
    + injection H as _ <- <-. apply one; [exact N|]. apply mild_plain. exact (hdeliver_doc_text _ _ _ _ _ _ E).
    + injection H as _ <- <-. apply one; [exact N|]. apply mild_not; discriminate.
Qed.
Lemma hsnapshot_ends : forall n s s' r q, hsnapshot n s = (s', r, q) -> ends r q.
Proof.
  intros n s s' r q H. unfold RrdpHttp.hsnapshot in H.
  pose proof (get_doc_ends _ parse_node_octets (n_snapshot n)) as N. fold (node (n_snapshot n)) in N.
  destruct (node (n_snapshot n)) as [d|e|]; [|injection H as _ <- <-; exact N|injection H as _ <- <-; apply one; [exact N|apply mild_not; discriminate]].
  match goal with H : context [hdeliver_doc ?m ?i d s] |- _ => destruct (hdeliver_doc m i d s) as [s1 [|t|]] eqn:E end;
    injection H as _ <- <-; apply one; try exact N; try (apply mild_not; discriminate).
  apply mild_plain. exact (hdeliver_doc_text _ _ _ _ _ _ E).
Qed.
Lemma fetch_ends : forall path ls last s s' r q, fetch_http path ls last s = (s', r, q) -> ends r q.
Proof.
  intros path ls last s s' r q H. unfold RrdpHttp.fetch_http in H.
  pose proof (get_doc_ends _ parse_root_octets path) as N.
  destruct (get_doc parse_root_octets path) as [n|e|]; [|injection H as _ <- <-; exact N|injection H as _ <- <-; apply one; [exact N|apply mild_not; discriminate]].
  destruct (missing _ _ last (n_serial n)) as [m|]; [|injection H as _ <- <-; apply one; [exact N|apply mild_not; discriminate]].
  destruct ((last =? 0) || negb (beq ls (n_session n)) || m).
  - destruct (hsnapshot n s) as [[a b] c] eqn:E. injection H as _ <- <-. apply ends_cons; [exact N|exact (hsnapshot_ends _ _ _ _ _ E)].
  - destruct (hdeltas _ n last (wrap64 (last + 1)) last s) as [[a b] c] eqn:E. injection H as _ <- <-.
    apply ends_cons; [exact N|exact (hdeltas_ends _ _ _ _ _ _ _ _ _ E)].
Qed.

Hypothesis other : forall u code body, web u <> Response code body (Some too_large).
Lemma ok_not : forall q u, Forall ok q -> In u q -> ~ oversized limit (web u).
Proof. intros q u F I O. rewrite Forall_forall in F. destruct (F u I) as (b & C). exact (oversized_bad _ _ _ O C). Qed.
Theorem ends_large : forall r q path rsync, ends r q ->
  ((exists e, r = HError e /\ error_text path rsync e = too_large) <-> exists u, In u q /\ oversized limit (web u)).
Proof.
  intros r q path rsync E. destruct E as [r q F M|q u e F G]; split.
  - intros (e & R & T). now apply (M path rsync e R) in T.
  - intros (v & I & O). now apply (ok_not q v F I) in O.
  - intros (e' & R & T). injection R as <-. apply (get_text _ _ _ path rsync G) in T.
    destruct T as [T|(b & T & _)]; [|now apply other in T]. exists u. split; [apply in_elt|exact T].
  - intros (v & I & O). exists e. split; [reflexivity|]. apply in_app_or in I. destruct I as [I|[<-|[]]].
    + now apply (ok_not q v F I) in O.
    + apply (get_text _ _ _ path rsync G). now left.
Qed.
Theorem ends_last : forall r q u, ends r q -> In u q -> oversized limit (web u) ->
  exists q0, q = q0 ++ [u] /\ forall v, In v q0 -> exists b, complete limit (web v) b.
Proof.
  intros r q u E I O. destruct E as [r q F M|q v e F G].
  - now apply (ok_not q u F I) in O.
  - apply in_app_or in I. destruct I as [I|[<-|[]]]; [now apply (ok_not q u F I) in O|].
    exists q. split; [reflexivity|]. rewrite Forall_forall in F. exact F.
Qed.
Lemma ends_dec : forall r q, ends r q -> (exists u, In u q /\ oversized limit (web u)) \/ forall u, In u q -> ~ oversized limit (web u).
Proof.
  intros r q E. pose proof (ends_large r q [] [] E) as L. destruct E as [r q F M|q u e F G].
  - right. intros u I. exact (ok_not q u F I).
  - destruct (list_eq_dec Z.eq_dec (error_text [] [] e) too_large) as [T|T].
    + left. apply L. eauto.
    + right. intros v I O. apply T. destruct (proj2 L) as (e' & R & T'); [eauto|]. injection R as <-. exact T'.
Qed.
Theorem ends_kept : forall r q failover path rsync, ends r q ->
  (job_kept failover path rsync r = Some true <->
   failover = true /\ (exists e, r = HError e) /\ forall u, In u q -> ~ oversized limit (web u)).
Proof.
  intros r q failover path rsync E. pose proof (ends_large r q path rsync E) as L. unfold job_kept. split.
  - destruct r as [a b|e| |]; try discriminate. intros H. injection H as H. apply andb_prop in H. destruct H as [F B].
    split; [exact F|]. split; [eauto|]. intros u I O. destruct (proj2 L) as (e' & R & T); [eauto|]. injection R as <-.
    rewrite T, beq_refl in B. discriminate B.
  - intros (-> & (e & ->) & N). cbn [andb]. f_equal. destruct (beq (error_text path rsync e) too_large) eqn:B; [|reflexivity].
    apply beq_eq in B. destruct (proj1 L) as (u & I & O); [eauto|]. now apply N in O.
Qed.
End Web.

(** ** Only the needed part of an answer counts *)
Notation fetch_http := (fetch_http limit first_more second_more refuse_colons St cb cb_text bad_at).
Section Two.
Variables web web' : bytes -> answer.
Hypothesis same : forall u, get_xml limit (web u) = get_xml limit (web' u).
Lemma get_doc_same : forall A (parse : bytes -> xres A) u, get_doc limit web parse u = get_doc limit web' parse u.
Proof. intros A parse u. unfold get_doc. now rewrite same. Qed.
Lemma hdeltas_same : forall fuel n last serial tmp s,
  hdeltas limit first_more second_more refuse_colons St cb cb_text bad_at web fuel n last serial tmp s =
  hdeltas limit first_more second_more refuse_colons St cb cb_text bad_at web' fuel n last serial tmp s.
Proof.
  induction fuel as [|f IH]; intros n last serial tmp s; cbn [hdeltas]; [reflexivity|].
  destruct ((serial <=? n_serial n) && (0 <? wrap64 (n_serial n - last))); [|reflexivity].
  destruct (delta_at (n_deltas n) serial) as [u|]; [|reflexivity].
  unfold node. rewrite get_doc_same. destruct (get_doc limit web' _ u) as [d|e|]; [|reflexivity|reflexivity].
  match goal with |- context [hdeliver_doc St cb cb_text bad_at ?m ?i d s] => destruct (hdeliver_doc St cb cb_text bad_at m i d s) as [s1 [|t|]] end;
    [|reflexivity|reflexivity]. now rewrite IH.
Qed.
Lemma fetch_same : forall path ls last s, fetch_http web path ls last s = fetch_http web' path ls last s.
Proof.
  intros path ls last s. unfold RrdpHttp.fetch_http. rewrite get_doc_same.
  destruct (get_doc limit web' _ path) as [n|e|]; [|reflexivity|reflexivity].
  destruct (missing _ _ last (n_serial n)) as [m|]; [|reflexivity].
  destruct ((last =? 0) || negb (beq ls (n_session n)) || m).
  - unfold hsnapshot, node. now rewrite get_doc_same.
  - now rewrite hdeltas_same.
Qed.
End Two.
Theorem fetch_needed : forall web path ls last s, 0 <= limit ->
  fetch_http (fun u => needed limit (web u)) path ls last s = fetch_http web path ls last s.
Proof. intros web path ls last s H. apply fetch_same. intros u. now apply get_needed. Qed.
End Http.
