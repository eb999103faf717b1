(** Reading RRDP documents. *)
From Coq Require Import Lia Bool String.
From Verif.Model Require Import Base Str NetText Paths Cache Rrdp RrdpXml.
From Verif.Spec Require Import XmlSpec.
From Verif.Proofs Require Import StrProofs NetTextProofs.

Notation length := List.length.

Lemma beq_spec : forall a b, reflect (a = b) (beq a b).
Proof. intros. apply iff_reflect. symmetry. apply beq_eq. Qed.

(** ** Attributes *)
Lemma attr_absent : forall name a cur, ~ In name (map fst a) -> attr name a cur = cur.
Proof.
  induction a as [|[n x] a IH]; intros cur H; cbn [attr]; [reflexivity|].
  destruct (beq_spec n name) as [->|N]; [destruct H; now left|]. apply IH. intros I. apply H. now right.
Qed.

Lemma attr_app : forall name a b cur, attr name (a ++ b) cur = attr name b (attr name a cur).
Proof. induction a as [|[n x] a IH]; intros b cur; cbn [attr app]; [reflexivity|apply IH]. Qed.

Lemma attr_read : forall name a d v, attr_is name a d v -> attr name a d = v.
Proof.
  intros name a d v [(x & y & -> & N)|(N & ->)]; [|now apply attr_absent].
  rewrite attr_app. cbn [attr]. destruct (beq_spec name name); [|congruence]. now apply attr_absent.
Qed.

(** ** Numbers *)
Lemma digit_no_space : forall c, is_digit c = true -> is_space c = false.
Proof. intros c H. unfold is_digit in H. unfold is_space. lia. Qed.

Lemma trim_digits : forall s, Forall (fun c => is_digit c = true) s -> trim_space s = s.
Proof.
  assert (forall s, Forall (fun c => is_digit c = true) s -> drop_spaces s = s) as A.
  { intros s H. destruct H as [|c s H _]; [reflexivity|]. cbn [drop_spaces]. now rewrite digit_no_space. }
  intros s H. unfold trim_space. rewrite (A s H), A; [apply rev_involutive|]. now apply Forall_rev.
Qed.

Lemma int_attr_dec : forall n, 0 <= n < 2 ^ 63 -> int_attr (dec n) = Some n.
Proof.
  intros n H. destruct (dec_digits n) as [D NE]; [lia|]. unfold int_attr.
  destruct (dec n) as [|c r] eqn:E; [congruence|]. rewrite <- E in *.
  rewrite (trim_digits _ D). unfold parse_int64. rewrite E.
  assert (is_digit c = true) as DC by (rewrite E in D; now inversion D).
  assert ((c =? 45) = false) as -> by (unfold is_digit in DC; lia).
  assert ((c =? 43) = false) as -> by (unfold is_digit in DC; lia).
  rewrite <- E. rewrite (proj2 (forallb_forall _ _)) by (now apply Forall_forall).
  rewrite dec_value by lia. destruct (Z.leb_spec (- 2 ^ 63) (1 * n)); [|lia].
  destruct (Z.ltb_spec (1 * n) (2 ^ 63)); [|lia]. cbn [andb]. f_equal. lia.
Qed.

Lemma attr_int_fine : forall a cur, serial_fine a -> exists n, attr_int (str "serial") a cur = Some n.
Proof.
  induction a as [|[m x] a IH]; intros cur F; cbn [attr_int]; [eauto|].
  assert (serial_fine a) as F' by (intros y I; apply F; now right).
  destruct (beq_spec m (str "serial")) as [->|N]; [|now apply IH].
  destruct (F x (or_introl eq_refl)) as (n & -> & B). rewrite int_attr_dec by exact B. now apply IH.
Qed.

Lemma attr_int_app : forall name a b cur, attr_int name (a ++ b) cur =
  match attr_int name a cur with Some k => attr_int name b k | None => None end.
Proof.
  induction a as [|[m x] a IH]; intros b cur; cbn [attr_int app]; [reflexivity|].
  destruct (beq m name); [|apply IH]. destruct (int_attr x); [apply IH|reflexivity].
Qed.

Lemma attr_int_absent : forall name a cur, ~ In name (map fst a) -> attr_int name a cur = Some cur.
Proof.
  induction a as [|[n x] a IH]; intros cur H; cbn [attr_int]; [reflexivity|].
  destruct (beq_spec n name) as [->|N]; [destruct H; now left|]. apply IH. intros I. apply H. now right.
Qed.

Lemma attr_int_read : forall a x n, attr_is (str "serial") a (dec 0) x -> number_text x n -> serial_fine a ->
  attr_int (str "serial") a 0 = Some n.
Proof.
  intros a x n [(u & y & -> & N)|(N & ->)] (E & B) F.
  - subst x. rewrite attr_int_app. destruct (attr_int_fine u 0) as (k & ->).
    { intros z I. apply F, in_or_app. now left. }
    cbn [attr_int]. destruct (beq_spec (str "serial") (str "serial")); [|congruence].
    rewrite int_attr_dec by exact B. now apply attr_int_absent.
  - apply dec_inj in E. subst n. now apply attr_int_absent.
Qed.

(** ** Elements *)
Section TreeInd.
Variable P : xtree -> Prop.
Hypothesis HN : forall n a k, Forall P k -> P (Node n a k).
Hypothesis HT : forall t, P (Txt t).
Hypothesis HM : P Misc.
Fixpoint tree_ind (t : xtree) : P t :=
  match t with
  | Node n a k => HN n a k ((fix go (k : list xtree) : Forall P k :=
                               match k with [] => Forall_nil P | x :: r => Forall_cons x (tree_ind x) (go r) end) k)
  | Txt t => HT t
  | Misc => HM
  end.
End TreeInd.

Lemma stream_cons : forall t l, stream (t :: l) = tokens t ++ stream l.
Proof. reflexivity. Qed.
Lemma stream_app : forall a b, stream (a ++ b) = stream a ++ stream b.
Proof. intros. unfold stream. now rewrite flat_map_app. Qed.
Lemma tokens_node : forall n a k, tokens (Node n a k) = XStart n a :: stream k ++ [XEnd].
Proof. reflexivity. Qed.

Lemma skip_forest : forall k, Forall (fun t => forall d r, skip d (tokens t ++ r) = skip d r) k ->
  forall d r, skip d (stream k ++ r) = skip d r.
Proof.
  induction 1 as [|t k Ht _ IH]; intros d r; [reflexivity|]. rewrite stream_cons, <- app_assoc, Ht. apply IH.
Qed.
Lemma skip_tree : forall t d r, skip d (tokens t ++ r) = skip d r.
Proof.
  induction t as [n a k H| |] using tree_ind; intros d r; [|reflexivity|reflexivity].
  rewrite tokens_node. cbn [app skip]. rewrite <- app_assoc, skip_forest by exact H. reflexivity.
Qed.
Lemma skip_stream : forall k d r, skip d (stream k ++ r) = skip d r.
Proof. intros k. apply skip_forest, Forall_forall. intros t _. apply skip_tree. Qed.
Lemma skip_element : forall k r, skip 0 (stream k ++ XEnd :: r) = Some r.
Proof. intros. now rewrite skip_stream. Qed.

Lemma text_deep : forall k, Forall (fun t => forall d r acc, read_text (S d) (tokens t ++ r) acc = read_text (S d) r acc) k ->
  forall d r acc, read_text (S d) (stream k ++ r) acc = read_text (S d) r acc.
Proof.
  induction 1 as [|t k Ht _ IH]; intros d r acc; [reflexivity|]. rewrite stream_cons, <- app_assoc, Ht. apply IH.
Qed.
Lemma text_tree : forall t d r acc, read_text (S d) (tokens t ++ r) acc = read_text (S d) r acc.
Proof.
  induction t as [n a k H| |] using tree_ind; intros d r acc; [|reflexivity|reflexivity].
  rewrite tokens_node. cbn [app read_text]. rewrite <- app_assoc, text_deep by exact H. reflexivity.
Qed.
Lemma text_element : forall k r acc, read_text 0 (stream k ++ XEnd :: r) acc = Some (acc ++ direct_text k, r).
Proof.
  induction k as [|t k IH]; intros r acc.
  - cbn [stream flat_map app read_text direct_text]. now rewrite app_nil_r.
  - rewrite stream_cons, <- app_assoc. destruct t as [n a kk|t|].
    + rewrite tokens_node. cbn [app read_text]. rewrite <- app_assoc.
      rewrite text_deep by (apply Forall_forall; intros; apply text_tree).
      cbn [app read_text direct_text]. apply IH.
    + cbn [tokens app read_text direct_text]. rewrite IH. now rewrite <- app_assoc.
    + cbn [tokens app read_text direct_text]. apply IH.
Qed.

Lemma stream_pos : forall n a k, (2 <= length (tokens (Node n a k)))%nat.
Proof. intros. rewrite tokens_node. cbn [length]. rewrite app_length. cbn [length]. lia. Qed.

Lemma els_same : forall name a k r l, elements name (Node name a k :: r) l ->
  exists u l', l = (u, direct_text k) :: l' /\ attr_is (str "uri") a [] u /\ elements name r l'.
Proof. intros name a k r l H. inversion H; subst; [eauto|congruence]. Qed.
Lemma els_diff : forall name n a k r l, n <> name -> elements name (Node n a k :: r) l -> elements name r l.
Proof. intros name n a k r l N H. inversion H; subst; [congruence|assumption]. Qed.

Lemma body_read : forall k lp lw, elements (str "publish") k lp -> elements (str "withdraw") k lw ->
  forall fuel p w r, (length (stream k) < fuel)%nat ->
  read_body fuel p w (stream k ++ XEnd :: r) = XOk (p ++ lp, w ++ lw, r).
Proof.
  induction k as [|t k IH]; intros lp lw HP HW fuel p w r F.
  - inversion HP; inversion HW; subst. destruct fuel as [|f]; [cbn in F; lia|].
    cbn [stream flat_map app read_body]. now rewrite !app_nil_r.
  - rewrite stream_cons, app_length in F. destruct fuel as [|f]; [lia|].
    rewrite stream_cons, <- app_assoc. destruct t as [n a kk|t|].
    + pose proof (stream_pos n a kk) as L2. rewrite tokens_node. cbn [app read_body]. rewrite <- app_assoc. cbn [app].
      destruct (beq_spec n (str "publish")) as [->|NP]; [|destruct (beq_spec n (str "withdraw")) as [->|NW]].
      * rewrite text_element. cbn [app].
        apply els_same in HP as (u & l' & -> & HA & HR). apply els_diff in HW as HW'; [|discriminate].
        rewrite (attr_read _ _ _ _ HA). rewrite (IH _ _ HR HW') by lia. now rewrite <- app_assoc.
      * rewrite text_element. cbn [app].
        apply els_same in HW as (u & l' & -> & HA & HR). apply els_diff in HP as HP'; [|discriminate].
        rewrite (attr_read _ _ _ _ HA). rewrite (IH _ _ HP' HR) by lia. now rewrite <- app_assoc.
      * rewrite skip_element.
        apply els_diff in HP; [|exact NP]. apply els_diff in HW; [|exact NW].
        apply IH; auto. lia.
    + inversion HP; subst. inversion HW; subst. cbn [tokens app read_body]. cbn [tokens length] in F. apply IH; auto. lia.
    + inversion HP; subst. inversion HW; subst. cbn [tokens app read_body]. cbn [tokens length] in F. apply IH; auto. lia.
Qed.

(** ** Documents *)
Lemma node_before : forall before l fuel p w d s, free update_names before ->
  node_loop (length before + fuel) p w d s (before ++ l) = node_loop fuel p w d s l.
Proof.
  induction before as [|t before IH]; intros l fuel p w d s F; [reflexivity|].
  assert (free update_names before) as F' by (intros n a I; apply (F n a); now right).
  cbn [length Nat.add app node_loop]. destruct t as [n a| | |]; try now apply IH.
  pose proof (F n a (or_introl eq_refl)) as N. unfold update_names in N. cbn [In] in N.
  destruct (beq_spec n (str "delta")) as [->|_]; [destruct N; now left|].
  destruct (beq_spec n (str "snapshot")) as [->|_]; [destruct N; right; now left|]. now apply IH.
Qed.

Lemma node_free : forall l fuel p w d s, free update_names l -> (length l < fuel)%nat ->
  node_loop fuel p w d s l = XOk (p, w).
Proof.
  intros l fuel p w d s F L. pose proof (node_before l [] (fuel - length l) p w d s F) as H.
  rewrite app_nil_r in H. replace (length l + (fuel - length l))%nat with fuel in H by lia. rewrite H.
  destruct (fuel - length l)%nat eqn:E; [lia|reflexivity].
Qed.

Lemma in_update : forall n, In n update_names -> n = str "delta" \/ n = str "snapshot".
Proof. intros n [<-|[<-|[]]]; auto. Qed.

Theorem update_read : forall l p w, update_doc l p w -> parse_node l = XOk (p, w).
Proof.
  intros l p w (before & n & a & k & after & -> & N & FB & FA & SF & HP & HW).
  unfold parse_node. rewrite app_length.
  replace (S (length before + length (tokens (Node n a k) ++ after)))%nat
    with (length before + S (length (tokens (Node n a k) ++ after)))%nat by lia.
  rewrite node_before by exact FB. rewrite app_length, tokens_node. cbn [length]. rewrite app_length. cbn [length].
  cbn [app node_loop]. rewrite <- app_assoc. cbn [app].
  destruct (attr_int_fine a 0 SF) as (x & EX).
  destruct (in_update n N) as [-> | ->].
  - rewrite beq_refl, EX. rewrite (body_read k p w HP HW) by (cbn [fst snd]; lia). cbn [fst snd app].
    apply node_free; [exact FA|lia].
  - change (beq (str "snapshot") (str "delta")) with false. rewrite beq_refl, EX.
    rewrite (body_read k p w HP HW) by (cbn [fst snd]; lia). cbn [fst snd app]. apply node_free; [exact FA|lia].
Qed.

Theorem foreign_read : forall l, free update_names l -> parse_node l = XOk ([], []).
Proof. intros l F. unfold parse_node. apply node_free; [exact F|lia]. Qed.

(** ** Documents that break off *)
Lemma skip_nest : forall l d r, skip d l = Some r -> forall e, skip (d + S e) l = skip e r.
Proof.
  induction l as [|t l IH]; intros d r H e; cbn [skip] in *; [discriminate|].
  destruct t as [n a| |t|]; try now apply IH.
  - apply (IH (S d)). exact H.
  - destruct d as [|d]; cbn [Nat.add].
    + now injection H as ->.
    + now apply IH.
Qed.

Lemma text_skip : forall l d acc t r, read_text d l acc = Some (t, r) -> skip d l = Some r.
Proof.
  induction l as [|x l IH]; intros d acc t r H; cbn [read_text skip] in *; [discriminate|].
  destruct x as [n a| |x|]; eauto. destruct d as [|d]; [|eauto]. now injection H as _ ->.
Qed.

Lemma body_skip : forall fuel l p w p' w' r, read_body fuel p w l = XOk (p', w', r) -> skip 0 l = Some r.
Proof.
  induction fuel as [|f IH]; intros l p w p' w' r H; [discriminate|]. cbn [read_body] in H.
  destruct l as [|t l]; [discriminate|]. destruct t as [n a| |t|]; cbn [skip]; eauto.
  - assert (forall r', skip 0 l = Some r' -> skip 0 r' = Some r -> skip 1 l = Some r) as A.
    { intros r' E1 E2. rewrite <- E2. exact (skip_nest _ _ _ E1 0%nat). }
    destruct (beq n (str "publish")); [|destruct (beq n (str "withdraw"))].
    + destruct (read_text 0 l []) as [[t r']|] eqn:E; [|discriminate]. apply text_skip in E. eauto.
    + destruct (read_text 0 l []) as [[t r']|] eqn:E; [|discriminate]. apply text_skip in E. eauto.
    + destruct (skip 0 l) as [r'|] eqn:E; [|discriminate]. eauto.
  - now injection H as _ _ ->.
Qed.

Lemma skip_more : forall l d r rest, skip d l = Some r -> skip d (l ++ rest) = Some (r ++ rest).
Proof.
  induction l as [|t l IH]; intros d r rest H; cbn [skip app] in *; [discriminate|].
  destruct t as [n a| |t|]; eauto. destruct d; eauto. now injection H as ->.
Qed.

Lemma skip_short : forall l d r, skip d l = Some r -> (length r < length l)%nat.
Proof.
  induction l as [|t l IH]; intros d r H; cbn [skip length] in *; [discriminate|].
  destruct t as [n a| |t|]; try (apply IH in H; lia). destruct d; [injection H as ->; lia|apply IH in H; lia].
Qed.

Lemma broken_part : forall part rest k, part ++ rest = stream k ++ [XEnd] -> rest <> [] -> skip 0 part = None.
Proof.
  intros part rest k E NE. destruct (skip 0 part) as [r|] eqn:S; [|reflexivity].
  apply (skip_more _ _ _ rest) in S. rewrite E, skip_element in S. injection S as S.
  destruct rest; [congruence|]. destruct r; discriminate.
Qed.

Lemma body_fuel : forall fuel l p w, (length l < fuel)%nat -> read_body fuel p w l <> XFuel.
Proof.
  induction fuel as [|f IH]; intros l p w L; [lia|]. cbn [read_body]. destruct l as [|t l]; [discriminate|].
  cbn [length] in L. destruct t as [n a| |t|]; try discriminate; try (apply IH; lia).
  destruct (beq n (str "publish")); [|destruct (beq n (str "withdraw"))].
  - destruct (read_text 0 l []) as [[t r']|] eqn:E; [|discriminate]. apply text_skip, skip_short in E. apply IH. lia.
  - destruct (read_text 0 l []) as [[t r']|] eqn:E; [|discriminate]. apply text_skip, skip_short in E. apply IH. lia.
  - destruct (skip 0 l) as [r'|] eqn:E; [|discriminate]. apply skip_short in E. apply IH. lia.
Qed.

Lemma body_broken : forall fuel p w part rest k, part ++ rest = stream k ++ [XEnd] -> rest <> [] ->
  (length part < fuel)%nat -> read_body fuel p w part = XErr.
Proof.
  intros fuel p w part rest k E NE L. destruct (read_body fuel p w part) as [[[p' w'] r]| |] eqn:R; [|reflexivity|].
  - apply body_skip in R. now rewrite (broken_part _ _ _ E NE) in R.
  - now apply body_fuel in R.
Qed.

Theorem broken_read : forall l, broken_in update_names l -> parse_node l = XErr.
Proof.
  intros l (before & n & a & k & part & rest & -> & N & FB & E & NE).
  unfold parse_node. rewrite app_length.
  replace (S (length before + length (XStart n a :: part)))%nat
    with (length before + S (length (XStart n a :: part)))%nat by lia.
  rewrite node_before by exact FB. cbn [length node_loop].
  destruct (in_update n N) as [-> | ->].
  - rewrite beq_refl. destruct (attr_int (str "serial") a 0); [|reflexivity].
    rewrite (body_broken _ _ _ _ _ _ E NE) by lia. reflexivity.
  - change (beq (str "snapshot") (str "delta")) with false. rewrite beq_refl.
    destruct (attr_int (str "serial") a 0); [|reflexivity].
    rewrite (body_broken _ _ _ _ _ _ E NE) by lia. reflexivity.
Qed.

Theorem node_returns : forall l, parse_node l <> XFuel.
Proof.
  intros l. unfold parse_node.
  assert (forall fuel l p w d s, (length l < fuel)%nat -> node_loop fuel p w d s l <> XFuel) as A; [|apply A; lia].
  clear l. induction fuel as [|f IH]; intros l p w d s L; [lia|]. cbn [node_loop].
  destruct l as [|t l]; [discriminate|]. cbn [length] in L. destruct t as [n a| |t|]; try (apply IH; lia).
  destruct (beq n (str "delta")); [|destruct (beq n (str "snapshot"))]; [| |apply IH; lia].
  - destruct (attr_int (str "serial") a 0); [|discriminate].
    destruct (read_body f (fst d) (snd d) l) as [[[p' w'] r]| |] eqn:R; [|discriminate|].
    + apply body_skip, skip_short in R. apply IH. lia.
    + exfalso. apply body_fuel in R; [exact R|lia].
  - destruct (attr_int (str "serial") a 0); [|discriminate].
    destruct (read_body f (fst s) (snd s) l) as [[[p' w'] r]| |] eqn:R; [|discriminate|].
    + apply body_skip, skip_short in R. apply IH. lia.
    + exfalso. apply body_fuel in R; [exact R|lia].
Qed.

(** ** Notifications *)
Lemma root_before : forall before l fuel n, free [str "notification"] before ->
  root_loop (length before + fuel) n (before ++ l) = root_loop fuel n l.
Proof.
  induction before as [|t before IH]; intros l fuel m F; [reflexivity|].
  assert (free [str "notification"] before) as F' by (intros n a I; apply (F n a); now right).
  cbn [length Nat.add app root_loop]. destruct t as [n a| | |]; try now apply IH.
  pose proof (F n a (or_introl eq_refl)) as N. cbn [In] in N.
  destruct (beq_spec n (str "notification")) as [->|_]; [destruct N; now left|]. now apply IH.
Qed.

Lemma root_free : forall l fuel n, free [str "notification"] l -> (length l < fuel)%nat -> root_loop fuel n l = XOk n.
Proof.
  intros l fuel n F L. pose proof (root_before l [] (fuel - length l) n F) as H.
  rewrite app_nil_r in H. replace (length l + (fuel - length l))%nat with fuel in H by lia. rewrite H.
  destruct (fuel - length l)%nat eqn:E; [lia|reflexivity].
Qed.

Lemma listed_delta : forall a k r l, listed (Node (str "delta") a k :: r) l ->
  exists n u l', l = (n, u) :: l' /\ attr_int (str "serial") a 0 = Some n /\ attr (str "uri") a [] = u /\ listed r l'.
Proof.
  intros a k r l H. remember (Node (str "delta") a k :: r) as z eqn:EZ.
  destruct H as [|a0 k0 x n u r0 l0 H1 H2 H3 H4 H5|m a0 k0 r0 l0 N H|t r0 l0 H|r0 l0 H]; try discriminate.
  2: { exfalso. apply N. apply (f_equal (fun z => match z with Node m _ _ :: _ => m | _ => [] end)) in EZ. exact EZ. }
  assert (a0 = a) as -> by exact (f_equal (fun z => match z with Node _ a _ :: _ => a | _ => a0 end) EZ).
  assert (r0 = r) as -> by exact (f_equal (@tl xtree) EZ).
  do 3 eexists. repeat split; [eapply attr_int_read; eauto| |assumption]. now apply attr_read.
Qed.
Lemma listed_diff : forall n a k r l, n <> str "delta" -> listed (Node n a k :: r) l -> listed r l.
Proof. intros n a k r l N H. inversion H; subst; [now destruct N|assumption]. Qed.
Lemma listed_app : forall k1 k2 l, listed (k1 ++ k2) l -> exists l1 l2, l = l1 ++ l2 /\ listed k1 l1 /\ listed k2 l2.
Proof.
  induction k1 as [|t k1 IH]; intros k2 l H; [exists [], l; repeat split; [constructor|assumption]|].
  cbn [app] in H. inversion H; subst;
    match goal with X : listed (k1 ++ k2) _ |- _ => destruct (IH _ _ X) as (l1 & l2 & -> & A & B) end.
  - eexists (_ :: l1), l2. repeat split; [eapply (li_delta a k x n u); eauto|assumption].
  - exists l1, l2. repeat split; [now constructor|assumption].
  - exists l1, l2. repeat split; [now constructor|assumption].
  - exists l1, l2. repeat split; [now constructor|assumption].
Qed.

(** Parts of a notification without a snapshot only add deltas. *)
Lemma root_body : forall k l, listed k l -> (forall b y, ~ In (Node (str "snapshot") b y) k) ->
  forall fuel n rest, (length (stream k) <= fuel)%nat -> exists fuel', (fuel <= fuel' + length (stream k))%nat /\
  read_root fuel n (stream k ++ rest) =
  read_root fuel' (mkNotif (n_session n) (n_serial n) (n_snapshot n) (n_deltas n ++ l)) rest.
Proof.
  induction k as [|t k IH]; intros l H NS fuel n rest F.
  - inversion H; subst. exists fuel. split; [cbn; lia|]. rewrite app_nil_r. destruct n; reflexivity.
  - assert (forall b y, ~ In (Node (str "snapshot") b y) k) as NS' by (intros b y I; apply (NS b y); now right).
    rewrite stream_cons, app_length in F. rewrite stream_cons, app_length, <- app_assoc.
    destruct t as [m a kk|t|].
    + pose proof (stream_pos m a kk) as L2. destruct fuel as [|f]; [lia|].
      set (L := length (tokens (Node m a kk))) in *. clearbody L.
      rewrite tokens_node. cbn [app read_root]. rewrite <- app_assoc. cbn [app].
      destruct (beq_spec m (str "snapshot")) as [->|N1]; [destruct (NS a kk); now left|].
      rewrite skip_element. destruct (beq_spec m (str "delta")) as [->|N2].
      * apply listed_delta in H as (x & u & l' & -> & -> & -> & H).
        destruct (IH l' H NS' f (mkNotif (n_session n) (n_serial n) (n_snapshot n) (n_deltas n ++ [(x, u)])) rest)
          as (f' & B & ->); [lia|]. exists f'. split; [lia|]. cbn [n_session n_serial n_snapshot n_deltas].
        now rewrite <- app_assoc.
      * apply listed_diff in H; [|exact N2]. destruct (IH l H NS' f n rest) as (f' & B & ->); [lia|].
        exists f'. split; [lia|reflexivity].
    + destruct fuel as [|f]; [cbn [tokens length] in F; lia|]. assert (listed k l) as H1 by now inversion H. cbn [tokens app read_root length] in *.
      destruct (IH l H1 NS' f n rest) as (f' & B & ->); [lia|]. exists f'. split; [lia|reflexivity].
    + destruct fuel as [|f]; [cbn [tokens length] in F; lia|]. assert (listed k l) as H1 by now inversion H. cbn [tokens app read_root length] in *.
      destruct (IH l H1 NS' f n rest) as (f' & B & ->); [lia|]. exists f'. split; [lia|reflexivity].
Qed.

Theorem notification_read : forall l n, notification_doc l n -> parse_root l = XOk n.
Proof.
  intros l [sess ser snap ds] (before & a & k & after & k1 & sa & sk & k2 & x & -> & FB & FA & HS & HX & HN & SF & EK & NS & SFS & HU & HL).
  cbn [n_session n_serial n_snapshot n_deltas] in *.
  unfold parse_root. rewrite app_length.
  replace (S (length before + length (tokens (Node (str "notification") a k) ++ after)))%nat
    with (length before + S (length (tokens (Node (str "notification") a k) ++ after)))%nat by lia.
  rewrite root_before by exact FB. rewrite app_length, tokens_node. cbn [length]. rewrite app_length. cbn [length].
  cbn [app root_loop]. rewrite <- app_assoc. cbn [app]. rewrite beq_refl. cbn [n_session n_serial n_snapshot n_deltas].
  rewrite (attr_int_read _ _ _ HX HN SF), (attr_read _ _ _ _ HS).
  subst k. destruct (listed_app _ _ _ HL) as (l1 & l2 & -> & HL1 & HL2).
  apply listed_diff in HL2; [|discriminate].
  rewrite stream_app, stream_cons, !app_length.
  pose proof (stream_pos (str "snapshot") sa sk) as L2.
  match goal with |- context [read_root ?f _ _] => set (fuel := f) end.
  assert (length (stream k1) + length (tokens (Node (str "snapshot") sa sk)) + length (stream k2) + 1 + length after
          <= fuel)%nat as BF by (unfold fuel; lia).
  clearbody fuel. rewrite <- !app_assoc. cbn [app].
  destruct (root_body k1 l1 HL1) with (fuel := fuel) (n := mkNotif sess ser [] [])
    (rest := tokens (Node (str "snapshot") sa sk) ++ stream k2 ++ XEnd :: after) as (f1 & B1 & ->).
  { intros b y I. apply (NS b y), in_or_app. now left. } { lia. }
  destruct f1 as [|f1]; [lia|].
  rewrite tokens_node. cbn [app read_root n_session n_serial n_snapshot n_deltas]. rewrite beq_refl.
  destruct (attr_int_fine sa 0 SFS) as (y & ->). rewrite <- app_assoc. cbn [app]. rewrite skip_element.
  rewrite (attr_read _ _ _ _ HU).
  destruct (root_body k2 l2 HL2) with (fuel := f1) (n := mkNotif sess ser snap l1) (rest := XEnd :: after)
    as (f2 & B2 & ->).
  { intros b z I. apply (NS b z), in_or_app. now right. } { lia. }
  destruct f2 as [|f2]; [lia|]. cbn [read_root n_session n_serial n_snapshot n_deltas].
  apply root_free; [exact FA|lia].
Qed.

Lemma root_skip : forall fuel l n n' r, read_root fuel n l = XOk (n', r) -> skip 0 l = Some r.
Proof.
  induction fuel as [|f IH]; intros l n n' r H; [discriminate|]. cbn [read_root] in H.
  destruct l as [|t l]; [discriminate|]. destruct t as [m a| |t|]; cbn [skip]; eauto.
  - assert (forall r', skip 0 l = Some r' -> skip 0 r' = Some r -> skip 1 l = Some r) as A.
    { intros r' E1 E2. rewrite <- E2. exact (skip_nest _ _ _ E1 0%nat). }
    destruct (beq m (str "snapshot")); [|destruct (beq m (str "delta"))].
    + destruct (attr_int (str "serial") a 0); [|discriminate]. destruct (skip 0 l) eqn:E; [|discriminate]. eauto.
    + destruct (attr_int (str "serial") a 0); [|discriminate]. destruct (skip 0 l) eqn:E; [|discriminate]. eauto.
    + destruct (skip 0 l) eqn:E; [|discriminate]. eauto.
  - now injection H as _ ->.
Qed.

Lemma read_root_fuel : forall fuel l n, (length l < fuel)%nat -> read_root fuel n l <> XFuel.
Proof.
  induction fuel as [|f IH]; intros l n L; [lia|]. cbn [read_root]. destruct l as [|t l]; [discriminate|].
  cbn [length] in L. destruct t as [m a| |t|]; try discriminate; try (apply IH; lia).
  destruct (beq m (str "snapshot")); [|destruct (beq m (str "delta"))].
  - destruct (attr_int (str "serial") a 0); [|discriminate].
    destruct (skip 0 l) eqn:E; [|discriminate]. apply skip_short in E. apply IH. lia.
  - destruct (attr_int (str "serial") a 0); [|discriminate].
    destruct (skip 0 l) eqn:E; [|discriminate]. apply skip_short in E. apply IH. lia.
  - destruct (skip 0 l) eqn:E; [|discriminate]. apply skip_short in E. apply IH. lia.
Qed.

Theorem root_broken : forall l, broken_in [str "notification"] l -> parse_root l = XErr.
Proof.
  intros l (before & n & a & k & part & rest & -> & N & FB & E & NE).
  destruct N as [<-|[]]. unfold parse_root. rewrite app_length.
  replace (S (length before + length (XStart (str "notification") a :: part)))%nat
    with (length before + S (length (XStart (str "notification") a :: part)))%nat by lia.
  rewrite root_before by exact FB. cbn [length root_loop]. rewrite beq_refl.
  destruct (attr_int (str "serial") a _); [|reflexivity].
  match goal with |- context [read_root ?f ?n part] => destruct (read_root f n part) as [[n' r]| |] eqn:R end;
    [|reflexivity|].
  - apply root_skip in R. now rewrite (broken_part _ _ _ E NE) in R.
  - exfalso. apply read_root_fuel in R; [exact R|lia].
Qed.

Theorem root_returns : forall l, parse_root l <> XFuel.
Proof.
  intros l. unfold parse_root.
  assert (forall fuel l n, (length l < fuel)%nat -> root_loop fuel n l <> XFuel) as A; [|apply A; lia].
  clear l. induction fuel as [|f IH]; intros l n L; [lia|]. cbn [root_loop].
  destruct l as [|t l]; [discriminate|]. cbn [length] in L. destruct t as [m a| |t|]; try (apply IH; lia).
  destruct (beq m (str "notification")); [|apply IH; lia].
  destruct (attr_int (str "serial") a (n_serial n)); [|discriminate].
  match goal with |- context [read_root ?f ?n l] => destruct (read_root f n l) as [[n' r]| |] eqn:R end; [|discriminate|].
  - apply root_skip, skip_short in R. apply IH. lia.
  - exfalso. apply read_root_fuel in R; [exact R|lia].
Qed.

Theorem root_foreign : forall l, free [str "notification"] l -> parse_root l = XOk (mkNotif [] 0 [] []).
Proof. intros l F. unfold parse_root. apply root_free; [exact F|lia]. Qed.
