(** The decoder of encoding/xml: tokens and documents. *)
From Coq Require Import List ZArith Lia Bool String.
From Verif.Model Require Import Base Str Der NetText Json Rrdp RrdpXml XmlLex.
From Verif.Spec Require Import JsonSpec XmlSpec XmlTextSpec.
From Verif.Proofs Require Import StrProofs JsonStr JsonSound XmlLexBase XmlLexTok XmlLexTag.
Import ListNotations.
Open Scope Z_scope.

Section Doc.
Variable first_more second_more : Z -> bool.
Variable refuse_colons : bool.
Notation name := (name first_more second_more).
Notation name_char := (name_char first_more second_more).
Notation stops := (stops first_more second_more).
Notation tag_name := (tag_name first_more second_more refuse_colons).
Notation attributes := (attributes first_more second_more refuse_colons).
Notation instruction := (instruction first_more second_more).
Notation content := (content first_more second_more refuse_colons).
Notation read_name := (read_name first_more second_more).
Notation read_nsname := (read_nsname first_more second_more refuse_colons).
Notation read_attrs := (read_attrs first_more second_more refuse_colons).
Notation raw_token := (raw_token first_more second_more refuse_colons).
Notation lex := (lex first_more second_more refuse_colons).
Notation lex_all := (lex_all first_more second_more refuse_colons).

Lemma not_name : forall b, In b [32; 9; 10; 13; 47; 62; 61; 34; 39; 63; 33; 60] -> b < 128 /\ ~ name_char b.
Proof. intros b H. unfold XmlTextSpec.name_char, start_char. cbn [In] in H. lia. Qed.
Lemma stops_app : forall w b r, blank w -> In b [47; 62; 61; 63] -> stops (w ++ b :: r).
Proof.
  intros w b r W B x q E. apply not_name. destruct w as [|y w].
  - injection E as <- _. cbn [In] in *. lia.
  - injection E as <- _. inversion W as [|? ? Y]; subst. cbn [In] in *. lia.
Qed.
Lemma stops_grow : forall t s, stops t -> stops s -> stops (t ++ s).
Proof. intros [|b t] s T S x r E; [exact (S x r E)|]. injection E as <- _. exact (T b t eq_refl). Qed.
Lemma name_hd : forall n, name n -> exists b r, n = b :: r /\ ~ In b [32; 9; 10; 13; 47; 62; 61; 34; 39; 63; 33; 60].
Proof.
  intros n N. pose proof (name_octets _ _ n N) as O. pose proof (name_nonempty _ _ n N) as E. destruct n as [|b r]; [contradiction|].
  exists b, r. split; [reflexivity|]. intros I. apply not_name in I. apply (octet_stop first_more second_more) in I. cbn [forallb] in O. rewrite I in O. discriminate O.
Qed.
Lemma hp_other : forall b r c p, b <> c -> has_prefix (b :: r) (c :: p) = false.
Proof. intros b r c p N. cbn [has_prefix]. replace (b =? c) with false by lia. reflexivity. Qed.

(** ** Attributes *)
Lemma attrs_end : forall k w e r, blank w ->
  read_attrs (S k) (w ++ (if e : bool then 47 :: 62 :: r else 62 :: r)) = Some ([], e, r).
Proof.
  intros k w e r W. cbn [XmlLex.read_attrs]. cbv zeta.
  rewrite spaces_app by (try exact W; intros b q E; destruct e; injection E as <- _; cbn; lia).
  destruct e.
  - cbn [has_prefix str]. rewrite !hp_nil. reflexivity.
  - change (has_prefix (62 :: r) (str "/>")) with false. cbn [has_prefix str]. rewrite hp_nil. reflexivity.
Qed.
Lemma attrs_read : forall l t, attributes l t -> forall k w e r, blank w -> (length t < k)%nat ->
  read_attrs k (t ++ w ++ (if e : bool then 47 :: 62 :: r else 62 :: r)) = Some (l, e, r).
Proof.
  induction 1 as [|n v w1 w2 w3 q l s T B1 B2 B3 Q _ IH]; intros k w e r W L.
  - destruct k; [lia|]. exact (attrs_end k w e r W).
  - destruct k as [|k]; [lia|]. destruct (name_hd n (proj1 T)) as (b & n' & -> & Nb).
    destruct Q as (c & x & Qc & -> & R & A).
    rewrite <- !app_assoc. cbn [XmlLex.read_attrs]. cbv zeta.
    rewrite spaces_app by (try exact B1; intros y z E; injection E as <- _; cbn [In] in Nb |- *; lia).
    change (str "/>") with [47; 62]. change (str ">") with [62]. cbn [app].
    rewrite !hp_other by (cbn [In] in Nb; lia).
    change (b :: n' ++ w2 ++ 61 :: (w3 ++ c :: (x ++ [c]) ++ s) ++ w ++ (if e then 47 :: 62 :: r else 62 :: r))
      with ((b :: n') ++ w2 ++ 61 :: (w3 ++ c :: (x ++ [c]) ++ s) ++ w ++ (if e then 47 :: 62 :: r else 62 :: r)).
    rewrite (read_nsname_ok first_more second_more refuse_colons (b :: n')); [|exact T|apply stops_app; [exact B2|cbn; auto]|destruct w2; discriminate].
    rewrite spaces_app by (try exact B2; intros y z E; injection E as <- _; cbn; lia).
    change (str "=") with [61]. rewrite hp_cons, hp_nil. cbn [Z.eqb Pos.eqb andb skipn].
    rewrite <- !app_assoc. cbn [app]. rewrite spaces_app by (try exact B3; intros y z E; injection E as <- _; cbn; lia).
    replace ((c =? 34) || (c =? 39)) with true by lia. rewrite <- !app_assoc. cbn [app].
    rewrite (quoted_text c x v) by assumption. rewrite IH; [reflexivity|exact W|].
    rewrite !app_length in L. cbn [length] in L. rewrite !app_length in L. cbn [length] in L. rewrite !app_length in L. lia.
Qed.
Lemma attrs_sound : forall k s l e r, read_attrs k s = Some (l, e, r) ->
  exists t w, s = t ++ w ++ (if e : bool then 47 :: 62 :: r else 62 :: r) /\ attributes l t /\ blank w.
Proof.
  induction k as [|k IH]; intros s l e r H; cbn [XmlLex.read_attrs] in H; [discriminate H|]. cbv zeta in H.
  destruct (spaces_sound s) as (w1 & B1 & E1 & _). set (s1 := spaces s) in *. clearbody s1. subst s.
  destruct (has_prefix s1 (str "/>")) eqn:P1.
  { apply prefix_parts in P1. injection H as <- <- <-. exists [], w1. split; [rewrite P1 at 1; reflexivity|]. split; [constructor|exact B1]. }
  destruct (has_prefix s1 (str ">")) eqn:P2.
  { apply prefix_parts in P2. injection H as <- <- <-. exists [], w1. split; [rewrite P2 at 1; reflexivity|]. split; [constructor|exact B1]. }
  destruct (read_nsname s1) as [[n s2]|] eqn:N; [|discriminate H].
  destruct (read_nsname_sound _ _ _ _ _ _ N) as (-> & T & _ & _).
  destruct (spaces_sound s2) as (w2 & B2 & E2 & _). set (s3 := spaces s2) in *. clearbody s3. subst s2.
  destruct (has_prefix s3 (str "=")) eqn:P3; [|discriminate H]. apply prefix_parts in P3. change (s3 = 61 :: skipn 1 s3) in P3.
  set (s4 := skipn 1 s3) in *. clearbody s4. subst s3.
  destruct (spaces_sound s4) as (w3 & B3 & E3 & _). set (s5 := spaces s4) in *. clearbody s5. subst s4.
  destruct s5 as [|q s6]; [discriminate H|]. destruct ((q =? 34) || (q =? 39)) eqn:Q; [|discriminate H].
  assert (Q' : q = 34 \/ q = 39) by lia.
  destruct (text (Some q) false s6) as [[v s7]|] eqn:X; [|discriminate H].
  destruct (read_attrs k s7) as [[[l' e'] r']|] eqn:A; [|discriminate H]. injection H as <- <- <-.
  destruct (text_quoted q s6 v s7 Q' X) as [->|(x & -> & R & C)].
  { exfalso. destruct k; discriminate A. }
  destruct (IH _ _ _ _ A) as (t & w & -> & At & W).
  exists (w1 ++ n ++ w2 ++ 61 :: w3 ++ (q :: x ++ [q]) ++ t), w. split; [|split; [|exact W]].
  - rewrite <- !app_assoc. do 3 f_equal. cbn [app]. f_equal. rewrite <- !app_assoc. f_equal. cbn [app]. rewrite <- !app_assoc. reflexivity.
  - apply at_cons; try assumption. exists q, x. auto.
Qed.

(** ** Tokens *)
Lemma raw_start : forall n a t w e s, tag_name n -> attributes a t -> stops t -> blank w ->
  raw_token (60 :: n ++ t ++ w ++ (if e : bool then 47 :: 62 :: s else 62 :: s)) = Some (RStart n a e, s).
Proof.
  intros n a t w e s T A St W. destruct (name_hd n (proj1 T)) as (b & n' & En & Nb).
  set (q := t ++ w ++ (if e then 47 :: 62 :: s else 62 :: s)).
  assert (E : raw_token (60 :: n ++ q) = start_tag first_more second_more refuse_colons (n ++ q)).
  { rewrite En. unfold XmlLex.raw_token.
    change (str "</") with [60; 47]. change (str "<?") with [60; 63]. change (str "<!--") with [60; 33; 45; 45].
    change (str "<!-") with [60; 33; 45]. change (str "<![CDATA[") with [60; 33; 91; 67; 68; 65; 84; 65; 91].
    change (str "<![") with [60; 33; 91]. change (str "<!") with [60; 33]. change (str "<") with [60].
    cbn [app]. rewrite !(hp_cons 60), hp_nil, !hp_other by (cbn [In] in Nb; lia). reflexivity. }
  rewrite E. unfold start_tag.
  rewrite (read_nsname_ok first_more second_more refuse_colons n); [|exact T| |].
  - unfold q. rewrite (attrs_read a t A); [reflexivity|exact W|]. rewrite app_length. lia.
  - apply stops_grow; [exact St|]. destruct e; apply stops_app; try exact W; cbn; auto.
  - unfold q. intros F. apply (f_equal (@length Z)) in F. rewrite !app_length in F. destruct e; cbn [length] in F; lia.
Qed.
Lemma raw_end : forall n w s, tag_name n -> blank w -> raw_token (60 :: 47 :: n ++ w ++ 62 :: s) = Some (REnd n, s).
Proof.
  intros n w s T W. unfold XmlLex.raw_token. change (str "</") with [60; 47]. rewrite !hp_cons, hp_nil. cbn [Z.eqb Pos.eqb andb skipn].
  unfold end_tag. rewrite (read_nsname_ok first_more second_more refuse_colons n);
    [|exact T|apply stops_app; [exact W|cbn; auto]|destruct w; discriminate].
  rewrite spaces_app by (try exact W; intros y z E; injection E as <- _; cbn; lia).
  change (str ">") with [62]. rewrite hp_cons, hp_nil. reflexivity.
Qed.
Lemma raw_text : forall x d s, chardata x d -> s = [] \/ prefix [60] s -> raw_token (x ++ s) = Some (RText d, s).
Proof.
  intros x d s C H. assert (E : raw_token (x ++ s) = some_text (text None false (x ++ s))).
  { destruct C as (N & R & _). destruct x as [|b x]; [contradiction|].
    assert (B : b <> 60) by (inversion R; subst; cbn [In] in *; lia).
    unfold XmlLex.raw_token. change (str "</") with [60; 47]. change (str "<?") with [60; 63]. change (str "<!--") with [60; 33; 45; 45].
    change (str "<!-") with [60; 33; 45]. change (str "<![CDATA[") with [60; 33; 91; 67; 68; 65; 84; 65; 91].
    change (str "<![") with [60; 33; 91]. change (str "<!") with [60; 33]. change (str "<") with [60].
    cbn [app]. rewrite !hp_other by exact B. reflexivity. }
  rewrite E, (text_chardata x d s C H). reflexivity.
Qed.
Lemma raw_cdata : forall x d s, cdata x d -> raw_token (x ++ s) = Some (RText d, s).
Proof.
  intros x d s (y & -> & R & C & A). rewrite <- !app_assoc. unfold XmlLex.raw_token.
  rewrite (has_prefix_app (str "<![CDATA[")). set (z := y ++ str "]]>" ++ s).
  change (has_prefix (str "<![CDATA[" ++ z) (str "</")) with false. change (has_prefix (str "<![CDATA[" ++ z) (str "<?")) with false.
  change (has_prefix (str "<![CDATA[" ++ z) (str "<!--")) with false. change (has_prefix (str "<![CDATA[" ++ z) (str "<!-")) with false.
  cbv iota. change (skipn 9 (str "<![CDATA[" ++ z)) with z. unfold z.
  rewrite (cdata_text y d s) by assumption. reflexivity.
Qed.
Lemma raw_misc : forall x s, comment x \/ instruction x \/ directive x -> raw_token (x ++ s) = Some (RMisc, s).
Proof.
  intros x s [(y & -> & N)|[(t & w & d & -> & Nt & W & Hd & St & Np & D)|(b & y & -> & N1 & N2 & D)]].
  - rewrite <- !app_assoc. unfold XmlLex.raw_token. rewrite (has_prefix_app (str "<!--")).
    change (has_prefix (str "<!--" ++ y ++ str "-->" ++ s) (str "</")) with false.
    change (has_prefix (str "<!--" ++ y ++ str "-->" ++ s) (str "<?")) with false. cbv iota.
    change (skipn 4 (str "<!--" ++ y ++ str "-->" ++ s)) with (y ++ str "-->" ++ s).
    rewrite (proj2 (comment_iff (y ++ str "-->" ++ s) s)); [reflexivity|]. exists y. auto.
  - rewrite <- !app_assoc. unfold XmlLex.raw_token. rewrite (has_prefix_app (str "<?")).
    change (has_prefix (str "<?" ++ t ++ w ++ d ++ str "?>" ++ s) (str "</")) with false. cbv iota.
    change (skipn 2 (str "<?" ++ t ++ w ++ d ++ str "?>" ++ s)) with (t ++ w ++ d ++ str "?>" ++ s).
    unfold XmlLex.instruction. rewrite (read_name_ok first_more second_more t); [|exact Nt| |].
    + rewrite spaces_app; [|exact W|].
      * rewrite (proj2 (pi_iff (d ++ str "?>" ++ s) (d ++ str "?>") s)) by (exists d; auto).
        change (str "?>") with [63; 62]. rewrite firstn_drop2.
        destruct (beq t (str "xml")) eqn:X; [|reflexivity]. apply beq_eq in X. rewrite (proj2 (decl_iff d) (D X)). reflexivity.
      * intros b r E. destruct d as [|y d]; [injection E as <- _; cbn; lia|]. injection E as <- _. exact (Hd y d eq_refl).
    + intros b r E. destruct (w ++ d ++ str "?>") as [|y z] eqn:F.
      * destruct w; [destruct d|]; discriminate F.
      * replace (w ++ d ++ str "?>" ++ s) with ((w ++ d ++ str "?>") ++ s) in E by (rewrite <- !app_assoc; reflexivity).
        rewrite F in E. injection E as <- _. exact (St y z eq_refl).
    + destruct w; [destruct d|]; discriminate.
  - rewrite <- !app_assoc. cbn [app]. rewrite <- app_assoc. cbn [app].
    change (str "<!" ++ b :: y ++ 62 :: s) with (60 :: 33 :: b :: y ++ 62 :: s). unfold XmlLex.raw_token.
    change (str "</") with [60; 47]. change (str "<?") with [60; 63]. change (str "<!--") with [60; 33; 45; 45].
    change (str "<!-") with [60; 33; 45]. change (str "<![CDATA[") with [60; 33; 91; 67; 68; 65; 84; 65; 91].
    change (str "<![") with [60; 33; 91]. change (str "<!") with [60; 33].
    rewrite !(hp_cons 60), !(hp_cons 33), hp_nil, !(hp_other b) by assumption. cbn [Z.eqb Pos.eqb andb skipn].
    rewrite (proj2 (directive_iff (y ++ 62 :: s) s)); [reflexivity|]. exists y. auto.
Qed.

Definition raw_form (s : bytes) (t : rtok) (r : bytes) : Prop :=
  match t with
  | RStart n a e => exists t w, s = 60 :: n ++ t ++ w ++ (if e : bool then 47 :: 62 :: r else 62 :: r) /\
      tag_name n /\ attributes a t /\ stops t /\ blank w
  | REnd n => exists w, s = 60 :: 47 :: n ++ w ++ 62 :: r /\ tag_name n /\ blank w
  | RText d => exists x, s = x ++ r /\ ((chardata x d /\ (r = [] \/ prefix [60] r)) \/ cdata x d)
  | RMisc => exists x, s = x ++ r /\ (comment x \/ instruction x \/ directive x)
  end.
Lemma raw_sound : forall s t r, s <> [] -> raw_token s = Some (t, r) -> raw_form s t r.
Proof.
  intros s t r Ns H. unfold XmlLex.raw_token in H.
  destruct (has_prefix s (str "</")) eqn:P1.
  { apply prefix_parts in P1. change (s = 60 :: 47 :: skipn 2 s) in P1. set (s2 := skipn 2 s) in *. clearbody s2. subst s.
    unfold end_tag in H. destruct (read_nsname s2) as [[n r1]|] eqn:N; [|discriminate H].
    destruct (read_nsname_sound _ _ _ _ _ _ N) as (-> & T & _ & _).
    destruct (spaces_sound r1) as (w & B & E & _). set (r2 := spaces r1) in *. clearbody r2. subst r1.
    destruct (has_prefix r2 (str ">")) eqn:P; [|discriminate H]. injection H as <- <-. apply prefix_parts in P.
    exists w. split; [rewrite P at 1; reflexivity|]. auto. }
  destruct (has_prefix s (str "<?")) eqn:P2.
  { apply prefix_parts in P2. change (s = str "<?" ++ skipn 2 s) in P2. set (s2 := skipn 2 s) in *. clearbody s2. subst s.
    unfold XmlLex.instruction in H. destruct (read_name s2) as [[n r1]|] eqn:N; [|discriminate H].
    destruct (read_name_sound _ _ _ _ _ N) as (-> & T & St & _).
    destruct (spaces_sound r1) as (w & B & E & F). set (r2 := spaces r1) in *. clearbody r2. subst r1.
    destruct (pi_go 0 r2) as [[d' r3]|] eqn:G; [|discriminate H]. apply pi_iff in G. destruct G as (d & -> & -> & Np).
    change (str "?>") with [63; 62] in H. rewrite firstn_drop2 in H.
    destruct (beq n (str "xml") && negb (decl_ok d)) eqn:X; [discriminate H|]. injection H as <- <-.
    exists (str "<?" ++ n ++ w ++ d ++ str "?>"). split; [rewrite <- !app_assoc; reflexivity|]. right; left.
    exists n, w, d. split; [reflexivity|]. split; [exact T|]. split; [exact B|]. split; [|split; [|split; [exact Np|]]].
    - intros b r E. apply (F b (r ++ str "?>" ++ r3)). rewrite E. reflexivity.
    - intros b r E. apply (St b (r ++ r3)). rewrite !app_assoc in *. rewrite <- (app_assoc w d), app_assoc, E. reflexivity.
    - intros ->. rewrite beq_refl in X. cbn [andb] in X. apply negb_false_iff, decl_iff in X. exact X. }
  destruct (has_prefix s (str "<!--")) eqn:P3.
  { apply prefix_parts in P3. change (s = str "<!--" ++ skipn 4 s) in P3. set (s2 := skipn 4 s) in *. clearbody s2. subst s.
    unfold misc in H. destruct (comment_go 0 0 s2) as [r1|] eqn:G; [|discriminate H]. injection H as <- <-.
    apply comment_iff in G. destruct G as (x & -> & N). exists (str "<!--" ++ x ++ str "-->").
    split; [rewrite <- !app_assoc; reflexivity|]. left. exists x. auto. }
  destruct (has_prefix s (str "<!-")) eqn:P4; [discriminate H|].
  destruct (has_prefix s (str "<![CDATA[")) eqn:P5.
  { apply prefix_parts in P5. change (s = str "<![CDATA[" ++ skipn 9 s) in P5. set (s2 := skipn 9 s) in *. clearbody s2. subst s.
    unfold some_text in H. destruct (text None true s2) as [[d r1]|] eqn:G; [|discriminate H]. injection H as <- <-.
    destruct (text_cdata _ _ _ G) as (x & -> & R & C & A). exists (str "<![CDATA[" ++ x ++ str "]]>").
    split; [rewrite <- !app_assoc; reflexivity|]. right. exists x. auto. }
  destruct (has_prefix s (str "<![")) eqn:P6; [discriminate H|].
  destruct (has_prefix s (str "<!")) eqn:P7.
  { apply prefix_parts in P7. change (s = 60 :: 33 :: skipn 2 s) in P7. set (s2 := skipn 2 s) in *. clearbody s2. subst s.
    destruct s2 as [|b s2]; [discriminate H|]. unfold misc in H.
    destruct (directive_go DText 0 0 s2) as [r1|] eqn:G; [|discriminate H]. injection H as <- <-.
    apply directive_iff in G. destruct G as (x & -> & D). exists (str "<!" ++ b :: x ++ [62]).
    split; [change (str "<!") with [60; 33]; cbn [app]; rewrite <- app_assoc; reflexivity|]. right; right. exists b, x. split; [reflexivity|].
    split; [|split; [|exact D]].
    - intros ->. change (str "<!-") with [60; 33; 45] in P4. rewrite !hp_cons, hp_nil in P4. discriminate P4.
    - intros ->. change (str "<![") with [60; 33; 91] in P6. rewrite !hp_cons, hp_nil in P6. discriminate P6. }
  destruct (has_prefix s (str "<")) eqn:P8.
  { apply prefix_parts in P8. change (s = 60 :: skipn 1 s) in P8. set (s2 := skipn 1 s) in *. clearbody s2. subst s.
    unfold start_tag in H. destruct (read_nsname s2) as [[n r1]|] eqn:N; [|discriminate H].
    destruct (read_nsname_sound _ _ _ _ _ _ N) as (-> & T & St & _).
    destruct (read_attrs (S (length r1)) r1) as [[[a e] r2]|] eqn:A; [|discriminate H]. injection H as <- <-.
    destruct (attrs_sound _ _ _ _ _ A) as (t & w & -> & At & W). exists t, w. split; [reflexivity|].
    split; [exact T|]. split; [exact At|]. split; [|exact W].
    intros b q E. apply (St b (q ++ w ++ (if e then 47 :: 62 :: r2 else 62 :: r2))). rewrite E. reflexivity. }
  unfold some_text in H. destruct (text None false s) as [[d r1]|] eqn:G; [|discriminate H]. injection H as <- <-.
  destruct (chardata_text s d r1 Ns) as (x & -> & C & E); [|exact G|].
  - intros (v & ->). change (str "<") with [60] in P8. rewrite has_prefix_app in P8. discriminate P8.
  - exists x. split; [reflexivity|]. left. auto.
Qed.
Lemma raw_len : forall s t r, s <> [] -> raw_token s = Some (t, r) -> (length r < length s)%nat.
Proof.
  intros s t r N H. apply raw_sound in H; [|exact N]. unfold raw_form in H. destruct t as [n a e|n|d|].
  - destruct H as (t & w & -> & _). cbn [length]. rewrite !app_length. destruct e; cbn [length]; lia.
  - destruct H as (w & -> & _). cbn [length]. rewrite !app_length. cbn [length]. lia.
  - destruct H as (x & -> & [[(X & _) _]|(y & -> & _)]); rewrite !app_length; [destruct x; [contradiction|]; cbn [length]; lia|].
    change (length (str "<![CDATA[")) with 9%nat. lia.
  - destruct H as (x & -> & [(y & -> & _)|[(t & w & d & -> & _)|(b & y & -> & _)]]); rewrite !app_length.
    + change (length (str "<!--")) with 4%nat. lia.
    + change (length (str "<?")) with 2%nat. lia.
    + change (length (str "<!")) with 2%nat. cbn [length]. lia.
Qed.
End Doc.
