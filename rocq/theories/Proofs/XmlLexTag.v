(** The decoder of encoding/xml: directives, names, tags. *)
From Coq Require Import List ZArith Lia Bool String.
From Verif.Model Require Import Base Str Der NetText Json Rrdp RrdpXml XmlLex.
From Verif.Spec Require Import JsonSpec XmlSpec XmlTextSpec.
From Verif.Proofs Require Import StrProofs JsonStr JsonSound XmlLexBase XmlLexTok.
Import ListNotations.
Open Scope Z_scope.

(** ** Directives *)
Lemma quote_run : forall q x d s, q <> 0 -> ~ In q x -> directive_go DText q d (x ++ q :: s) = directive_go DText 0 d s.
Proof.
  intros q x d s Q. induction x as [|b x IH]; intros N; cbn [app directive_go].
  - replace (q =? 0) with false by lia. cbn [andb]. unfold handle_b. rewrite Z.eqb_refl. reflexivity.
  - replace (q =? 0) with false by lia. cbn [andb]. unfold handle_b.
    replace (b =? q) with false by (symmetry; apply Z.eqb_neq; intro; apply N; left; assumption).
    replace (q =? 0) with false by lia. cbn [negb]. apply IH. intro; apply N; right; assumption.
Qed.
Lemma quote_sound : forall q d s r, q <> 0 -> directive_go DText q d s = Some r ->
  exists x s', s = x ++ q :: s' /\ ~ In q x /\ directive_go DText 0 d s' = Some r.
Proof.
  intros q d s r Q. induction s as [|b s IH]; intros H; cbn [directive_go] in H; [discriminate H|].
  replace (q =? 0) with false in H by lia. cbn [andb] in H. unfold handle_b in H.
  destruct (Z.eqb_spec b q) as [->|N].
  - exists [], s. auto.
  - replace (q =? 0) with false in H by lia. cbn [negb] in H. destruct (IH H) as (x & s' & -> & I & D).
    exists (b :: x), s'. split; [reflexivity|]. split; [|exact D]. intros [E|E]; [congruence|contradiction].
Qed.
Lemma close_infix : forall a b c x, ~ infix (str "-->") (a :: b :: c :: x) -> (a =? 45) && (b =? 45) && (c =? 62) = false.
Proof.
  intros a b c x H. destruct (Z.eqb_spec a 45); [|reflexivity]. destruct (Z.eqb_spec b 45); [|reflexivity].
  destruct (Z.eqb_spec c 62); [|reflexivity]. subst. exfalso. apply H. exists [], x. reflexivity.
Qed.
Lemma dcomment_run : forall x b0 b1 d s, ~ infix (str "-->") (b0 :: b1 :: x) ->
  directive_go (DComment b0 b1) 0 d (x ++ str "-->" ++ s) = directive_go DText 0 d s.
Proof.
  induction x as [|b x IH]; intros b0 b1 d s H.
  - change ([] ++ str "-->" ++ s) with (45 :: 45 :: 62 :: s). cbn [directive_go].
    destruct (b0 =? 45), (b1 =? 45); reflexivity.
  - cbn [app directive_go]. rewrite (close_infix _ _ _ _ H). apply IH. exact (infix_cons _ _ _ H).
Qed.
Lemma dcomment_sound : forall s b0 b1 d r, directive_go (DComment b0 b1) 0 d s = Some r ->
  exists x s' y, s = x ++ 62 :: s' /\ b0 :: b1 :: x = y ++ [45; 45] /\ ~ infix (str "-->") (b0 :: b1 :: x) /\
    directive_go DText 0 d s' = Some r.
Proof.
  induction s as [|b s IH]; intros b0 b1 d r H; cbn [directive_go] in H; [discriminate H|].
  destruct ((b0 =? 45) && (b1 =? 45) && (b =? 62)) eqn:A.
  - apply andb_prop in A. destruct A as [A A3]. apply andb_prop in A. destruct A as [A1 A2]. apply Z.eqb_eq in A1, A2, A3. subst.
    exists [], s, []. repeat split; auto. intros (u & v & E). apply (f_equal (@length Z)) in E. rewrite !app_length in E. cbn in E. lia.
  - destruct (IH _ _ _ _ H) as (x & s' & y & -> & E & N & D). exists (b :: x), s', (b0 :: y). split; [reflexivity|].
    split; [rewrite E; reflexivity|]. split; [|exact D]. intros (u & v & W). destruct u as [|w u].
    + cbn in W. injection W as -> -> -> _. discriminate A.
    + injection W as _ W. apply N. exists u, v. exact W.
Qed.
Lemma handle_plain : forall d b, ~ In b [34; 39; 60; 62] -> handle_b 0 d b = (DText, 0, d).
Proof.
  intros d b N. unfold handle_b. destruct (b =? 0); [reflexivity|]. cbn [negb Z.eqb]. cbn in N.
  replace ((b =? 39) || (b =? 34)) with false by lia. replace (b =? 62) with false by lia. replace (b =? 60) with false by lia. reflexivity.
Qed.
Lemma lt_step : forall d s, ~ prefix (str "!--") s -> directive_go (DLt 0) 0 d s = directive_go DText 0 (S d) s.
Proof.
  intros d s N. destruct s as [|a s]; [reflexivity|]. cbn [directive_go nth]. rewrite andb_false_r.
  destruct (Z.eqb_spec a 33) as [->|]; [|reflexivity]. change (0 =? 2)%nat with false. cbv iota.
  rewrite handle_plain by (cbn; lia).
  destruct s as [|b s]; [reflexivity|]. cbn [directive_go nth]. rewrite andb_false_r.
  destruct (Z.eqb_spec b 45) as [->|]; [|reflexivity]. change (1 =? 2)%nat with false. cbv iota.
  rewrite handle_plain by (cbn; lia).
  destruct s as [|c s]; [reflexivity|]. cbn [directive_go nth]. rewrite andb_false_r.
  destruct (Z.eqb_spec c 45) as [->|]; [|reflexivity]. exfalso. apply N. exists s. reflexivity.
Qed.
Lemma directive_read : forall x, directive_text x -> forall d s, directive_go DText 0 d (x ++ s) = directive_go DText 0 d s.
Proof.
  induction 1 as [|b x N _ IH|q y x Q Nq _ IH|y x _ IHy P _ IH|y x C _ IH]; intros d s.
  - reflexivity.
  - cbn [app directive_go]. replace (b =? 62) with false by (cbn in N; lia). rewrite andb_false_r. cbn [andb].
    rewrite handle_plain by exact N. apply IH.
  - cbn [app]. rewrite <- app_assoc. cbn [app directive_go].
    assert (E : q = 34 \/ q = 39) by (cbn in Q; lia). replace (q =? 62) with false by lia. rewrite andb_false_r. cbn [andb].
    replace (handle_b 0 d q) with (DText, q, d) by (destruct E; subst; reflexivity).
    rewrite quote_run by (auto; lia). apply IH.
  - cbn [app]. rewrite <- app_assoc. cbn [app directive_go]. change (60 =? 62) with false. rewrite andb_false_r. cbn [andb].
    change (handle_b 0 d 60) with (DLt 0, 0, d). cbv iota beta. rewrite lt_step.
    + rewrite IHy. cbn [directive_go]. change (handle_b 0 (S d) 62) with (DText, 0, d). change (S d =? 0)%nat with false.
      rewrite andb_false_r. apply IH.
    + intros (v & E). apply P. change (str "!--") with [33; 45; 45] in *.
      destruct y as [|a [|b [|c y]]]; cbn [app] in E; try discriminate E;
        try (injection E; intros; discriminate). injection E as -> -> -> _. exists y. reflexivity.
  - rewrite <- app_assoc. change (str "<!--" ++ (y ++ str "-->" ++ x) ++ s) with (60 :: 33 :: 45 :: 45 :: (y ++ str "-->" ++ x) ++ s).
    rewrite <- !app_assoc. cbn [directive_go]. change (60 =? 62) with false. rewrite andb_false_r. cbn [andb].
    change (handle_b 0 d 60) with (DLt 0, 0, d). cbv iota beta. cbn [directive_go nth Nat.eqb Z.eqb Pos.eqb].
    rewrite dcomment_run; [apply IH|]. intros (u & v & E). destruct u as [|w u]; [discriminate E|]. injection E as _ E.
    destruct u as [|w2 u]; [discriminate E|]. injection E as _ E. apply C. exists u, v. exact E.
Qed.

Inductive dchain : nat -> bytes -> Prop :=
| dc_0 x : directive_text x -> dchain 0 x
| dc_S d x y : directive_text x -> dchain d y -> dchain (S d) (x ++ 62 :: y).
Lemma chain_push : forall d p y, (forall x, directive_text x -> directive_text (p ++ x)) -> dchain d y -> dchain d (p ++ y).
Proof.
  intros d p y H []; [constructor; auto|]. rewrite app_assoc. constructor; auto.
Qed.
Lemma directive_sound : forall n d s r, (length s <= n)%nat -> directive_go DText 0 d s = Some r ->
  exists y, s = y ++ 62 :: r /\ dchain d y.
Proof.
  induction n as [|n IH]; intros d s r L H; (destruct s as [|b s]; [discriminate H|]); cbn [length] in L; [lia|].
  destruct (Z.eqb_spec b 62) as [->|N62].
  { cbn [directive_go] in H. cbn [Z.eqb Pos.eqb andb] in H. destruct d as [|d].
    - injection H as <-. exists []. split; [reflexivity|]. constructor. constructor.
    - cbn [Nat.eqb] in H. change (handle_b 0 (S d) 62) with (DText, 0, d) in H. cbv iota beta in H.
      destruct (IH d s r) as (y & -> & C); [lia|exact H|]. exists ([] ++ 62 :: y). split; [reflexivity|]. constructor; [constructor|exact C]. }
  destruct (Z.eqb_spec b 60) as [->|N60].
  { assert (H' : directive_go (DLt 0) 0 d s = Some r) by exact H. clear H.
    assert (D : {prefix (str "!--") s} + {~ prefix (str "!--") s}).
    { destruct (has_prefix s (str "!--")) eqn:E; [left|right].
      - exists (skipn 3 s). exact (prefix_parts _ _ E).
      - intros (v & ->). rewrite has_prefix_app in E. discriminate E. }
    destruct D as [(v & ->)|P].
    - change (str "!--" ++ v) with (33 :: 45 :: 45 :: v) in *. cbn [directive_go nth Nat.eqb Z.eqb Pos.eqb] in H'.
      destruct (dcomment_sound _ _ _ _ _ H') as (x & s' & y & -> & E & Nx & D). cbn [length] in L. rewrite app_length in L. cbn [length] in L.
      destruct (IH d s' r) as (w & -> & C); [lia|exact D|].
      assert (X : exists z, x = z ++ [45; 45]).
      { destruct y as [|u y]; [discriminate E|]. injection E as _ E. destruct y as [|u' y]; [discriminate E|]. injection E as _ E. eauto. }
      destruct X as (z & ->). exists (str "<!--" ++ z ++ str "-->" ++ w). split.
      + change (str "-->") with ([45; 45] ++ [62]). rewrite <- !app_assoc. reflexivity.
      + replace (str "<!--" ++ z ++ str "-->" ++ w) with ((str "<!--" ++ z ++ str "-->") ++ w) by (rewrite <- !app_assoc; reflexivity).
        apply chain_push; [|exact C]. intros t T. rewrite <- !app_assoc. apply dt_comment; [|exact T].
        intros (u & v & W). apply Nx. exists (0 :: 0 :: u), (v ++ [45; 45]). rewrite W. cbn [app]. rewrite <- !app_assoc. reflexivity.
    - rewrite lt_step in H' by exact P. destruct (IH (S d) s r) as (y & -> & C); [lia|exact H'|].
      inversion C as [|d' x y' Hx C' E1 E2]; subst. exists (60 :: x ++ 62 :: y'). split; [cbn [app]; rewrite <- !app_assoc; reflexivity|].
      replace (60 :: x ++ 62 :: y') with ((60 :: x ++ [62]) ++ y') by (cbn [app]; rewrite <- app_assoc; reflexivity).
      apply chain_push; [|exact C']. intros t T. cbn [app]. rewrite <- app_assoc. apply dt_nested; [exact Hx| |exact T].
      intros (v & ->). apply P. eexists. rewrite <- !app_assoc. reflexivity. }
  destruct (Z.eq_dec b 34) as [E34|N34]; [|destruct (Z.eq_dec b 39) as [E39|N39]].
  - subst b. assert (H' : directive_go DText 34 d s = Some r) by exact H.
    destruct (quote_sound 34 d s r ltac:(lia) H') as (x & s' & -> & Nx & D). rewrite app_length in L. cbn [length] in L.
    destruct (IH d s' r) as (y & -> & C); [lia|exact D|]. exists ((34 :: x ++ [34]) ++ y).
    split; [cbn [app]; rewrite <- !app_assoc; reflexivity|]. apply chain_push; [|exact C]. intros t T. cbn [app]. rewrite <- app_assoc.
    apply dt_quoted; [cbn; auto|exact Nx|exact T].
  - subst b. assert (H' : directive_go DText 39 d s = Some r) by exact H.
    destruct (quote_sound 39 d s r ltac:(lia) H') as (x & s' & -> & Nx & D). rewrite app_length in L. cbn [length] in L.
    destruct (IH d s' r) as (y & -> & C); [lia|exact D|]. exists ((39 :: x ++ [39]) ++ y).
    split; [cbn [app]; rewrite <- !app_assoc; reflexivity|]. apply chain_push; [|exact C]. intros t T. cbn [app]. rewrite <- app_assoc.
    apply dt_quoted; [cbn; auto|exact Nx|exact T].
  - assert (N : ~ In b [34; 39; 60; 62]) by (cbn; lia).
    cbn [directive_go] in H. replace (b =? 62) with false in H by lia. rewrite andb_false_r in H. cbn [andb] in H.
    rewrite handle_plain in H by exact N. destruct (IH d s r) as (y & -> & C); [lia|exact H|].
    exists ([b] ++ y). split; [reflexivity|]. apply chain_push; [|exact C]. intros t T. apply dt_octet; assumption.
Qed.
Lemma directive_iff : forall s r, directive_go DText 0 0 s = Some r <-> exists x, s = x ++ 62 :: r /\ directive_text x.
Proof.
  intros s r. split.
  - intros H. destruct (directive_sound _ _ _ _ (le_n _) H) as (y & E & C). inversion C; subst. eauto.
  - intros (x & -> & D). rewrite directive_read by exact D. reflexivity.
Qed.

(** ** Names *)
Section Names.
Variable first_more second_more : Z -> bool.
Variable refuse_colons : bool.
Notation name := (name first_more second_more).
Notation name_char := (name_char first_more second_more).
Notation start_char := (start_char first_more).
Notation stops := (stops first_more second_more).
Notation tag_name := (tag_name first_more second_more refuse_colons).
Notation read_name := (read_name first_more second_more).
Notation read_nsname := (read_nsname first_more second_more refuse_colons).

Definition octet_of_name (b : Z) : bool := (128 <=? b) || name_byte b.
Lemma octet_stop : forall b, octet_of_name b = false <-> b < 128 /\ ~ name_char b.
Proof.
  intros b. unfold octet_of_name, name_byte, XmlTextSpec.name_char, XmlTextSpec.start_char, in_range.
  rewrite !orb_false_iff, !andb_false_iff, !Z.leb_gt, !Z.eqb_neq. lia.
Qed.
Lemma first_iff : forall c, name_first first_more c = true <-> 0 <= c /\ start_char c.
Proof.
  intros c. unfold name_first, XmlTextSpec.start_char, in_range. destruct (Z.ltb_spec c 128).
  - rewrite !orb_true_iff, !andb_true_iff, !Z.leb_le, !Z.eqb_eq. lia.
  - split; [intros F; split; [lia|auto 6]|]. intros [_ [F|[F|[F|[F|[_ F]]]]]]; try lia. exact F.
Qed.
Lemma char_iff : forall c, name_first first_more c || name_second second_more c = true <-> 0 <= c /\ name_char c.
Proof.
  intros c. rewrite orb_true_iff, first_iff. unfold XmlTextSpec.name_char, name_second, in_range.
  destruct (Z.ltb_spec c 128).
  - rewrite !orb_true_iff, !andb_true_iff, !Z.leb_le, !Z.eqb_eq. split.
    + intros [[A B]|[[A|A]|A]]; (split; [lia|]); [left; exact B|right; left; exact A|right; right; left; exact A|right; right; right; left; lia].
    + intros [A [B|[B|[B|[B|[B _]]]]]]; [left; auto|right; left; left; exact B|right; left; right; exact B|right; right; lia|lia].
  - split.
    + intros [[A B]|A]; (split; [lia|]); [left; exact B|right; right; right; right; auto].
    + intros [A [B|[B|[B|[B|[_ B]]]]]]; try lia; [left; auto|right; exact B].
Qed.
Lemma is_name_iff : forall n, is_name first_more second_more n = true <-> name n.
Proof.
  intros n. unfold is_name. split.
  - intros H. destruct (next_rune n) as [[c r]|] eqn:E; [|discriminate H]. apply andb_prop in H. destruct H as [H1 H2].
    apply first_iff in H1. destruct H1 as [H0 H1]. destruct (next_sound _ _ _ E H0) as [Sc ->].
    exists c, r. repeat split; auto; try apply Sc. exact (runes_chars _ _ char_iff _ _ H2).
  - intros (c & r & -> & Sc & St & Ch). rewrite next_utf8 by exact Sc.
    rewrite (proj2 (first_iff c)) by (split; [unfold scalar in Sc; lia|exact St]).
    rewrite (chars_runes _ _ char_iff r Ch) by lia. reflexivity.
Qed.
Lemma utf8_octets : forall c, scalar c -> name_char c -> forallb octet_of_name (utf8 c) = true.
Proof.
  intros c Sc Nc. destruct (Z.ltb_spec c 128) as [L|L].
  - rewrite utf8_ascii by exact L. cbn [forallb]. rewrite andb_true_r. destruct (octet_of_name c) eqn:E; [reflexivity|].
    apply octet_stop in E. tauto.
  - apply forallb_forall. intros b Hb. unfold octet_of_name. replace (128 <=? b) with true; [reflexivity|]. symmetry. apply Z.leb_le.
    unfold utf8 in Hb. unfold scalar in Sc. replace (c <? 128) with false in Hb by lia.
    destruct (c <? 2048) eqn:E1; [|destruct (c <? 65536) eqn:E2]; cbn [In] in Hb;
      repeat (destruct Hb as [<-|Hb]; [Z.div_mod_to_equations; lia|]); contradiction.
Qed.
Lemma name_octets : forall n, name n -> forallb octet_of_name n = true.
Proof.
  intros n (c & r & -> & Sc & St & Ch). rewrite forallb_app, utf8_octets by (try exact Sc; left; exact St).
  induction Ch as [|x s Sx Px _ IH]; [reflexivity|]. rewrite forallb_app, utf8_octets by assumption. exact IH.
Qed.
Lemma name_nonempty : forall n, name n -> n <> [].
Proof. intros n (c & r & -> & _) E. pose proof (utf8_len c). apply (f_equal (@length Z)) in E. rewrite app_length in E. cbn in E. lia. Qed.
Lemma read_name_ok : forall n s, name n -> stops s -> s <> [] -> read_name (n ++ s) = Some (n, s).
Proof.
  intros n s N St E. unfold XmlLex.read_name. change (fun b => (128 <=? b) || name_byte b) with octet_of_name.
  rewrite span_app; [|apply name_octets, N|].
  - pose proof (name_nonempty n N). destruct n; [contradiction|]. destruct s; [contradiction|].
    rewrite (proj2 (is_name_iff _) N). reflexivity.
  - intros x r ->. apply octet_stop. exact (St x r eq_refl).
Qed.
Lemma read_name_sound : forall s n r, read_name s = Some (n, r) -> s = n ++ r /\ name n /\ stops r /\ r <> [].
Proof.
  intros s n r H. unfold XmlLex.read_name in H. change (fun b => (128 <=? b) || name_byte b) with octet_of_name in H.
  destruct (span octet_of_name s) as [a b] eqn:E. destruct (span_sound _ _ _ _ E) as (-> & _ & F).
  destruct a as [|x a]; [discriminate H|]. destruct b as [|y b]; [discriminate H|].
  destruct (is_name first_more second_more (x :: a)) eqn:N; [|discriminate H]. injection H as <- <-.
  split; [reflexivity|]. split; [apply is_name_iff, N|]. split; [|discriminate].
  intros z q Q. apply octet_stop. exact (F z q Q).
Qed.

Lemma colons_app : forall a b, colons (a ++ b) = (colons a + colons b)%nat.
Proof. intros a b. unfold colons. rewrite filter_app, app_length. reflexivity. Qed.
Lemma colons_cons : forall b s, colons (b :: s) = ((if (58 =? b)%Z then 1 else 0) + colons s)%nat.
Proof. intros b s. unfold colons. cbn [filter]. destruct (58 =? b); reflexivity. Qed.
Lemma colons_0 : forall s, colons s = O <-> ~ In 58 s.
Proof.
  induction s as [|b s IH]; [cbn; tauto|]. rewrite colons_cons. cbn [In]. destruct (Z.eqb_spec 58 b).
  - split; [intros H; discriminate H|]. intros H. exfalso. apply H. auto.
  - cbn. rewrite IH. split; [intros H [E|E]; [congruence|tauto]|tauto].
Qed.
Lemma colon_split : forall s, In 58 s -> exists a b, s = a ++ 58 :: b /\ ~ In 58 a.
Proof.
  induction s as [|x s IH]; [intros []|]. intros H. destruct (Z.eq_dec x 58) as [->|N].
  - exists [], s. auto.
  - destruct H as [H|H]; [congruence|]. destruct (IH H) as (a & b & -> & C). exists (x :: a), b. split; [reflexivity|].
    intros [E|E]; [congruence|contradiction].
Qed.
Lemma colons_many : forall n, (1 <? colons n)%nat = false <-> (forall a b c, n <> a ++ 58 :: b ++ 58 :: c).
Proof.
  intros n. rewrite Nat.ltb_ge. split.
  - intros H a b c ->. rewrite colons_app, colons_cons, colons_app, colons_cons in H. cbn in H. lia.
  - intros H. destruct (Nat.le_gt_cases (colons n) 1) as [L|L]; [exact L|]. exfalso.
    assert (I : In 58 n).
    { destruct (in_dec Z.eq_dec 58 n) as [I|I]; [exact I|]. apply colons_0 in I. lia. }
    destruct (colon_split n I) as (a & b & -> & A). rewrite colons_app, colons_cons in L. apply colons_0 in A. rewrite A in L. cbn in L.
    assert (J : In 58 b).
    { destruct (in_dec Z.eq_dec 58 b) as [J|J]; [exact J|]. apply colons_0 in J. lia. }
    destruct (colon_split b J) as (b1 & c & -> & _). exact (H a b1 c eq_refl).
Qed.
Lemma read_nsname_ok : forall n s, tag_name n -> stops s -> s <> [] -> read_nsname (n ++ s) = Some (n, s).
Proof.
  intros n s [N T] St E. unfold XmlLex.read_nsname. rewrite read_name_ok by assumption.
  replace (refuse_colons && (1 <? colons n)%nat) with false; [reflexivity|]. symmetry.
  destruct (bool_dec refuse_colons true) as [R|R].
  - rewrite (proj2 (colons_many n) (T R)). apply andb_false_r.
  - apply not_true_iff_false in R. rewrite R. reflexivity.
Qed.
Lemma read_nsname_sound : forall s n r, read_nsname s = Some (n, r) -> s = n ++ r /\ tag_name n /\ stops r /\ r <> [].
Proof.
  intros s n r H. unfold XmlLex.read_nsname in H. destruct (read_name s) as [[n' r']|] eqn:E; [|discriminate H].
  destruct (refuse_colons && (1 <? colons n')%nat) eqn:C; [discriminate H|]. injection H as <- <-.
  destruct (read_name_sound _ _ _ E) as (A & B & D & F). split; [exact A|]. split; [|split; [exact D|exact F]].
  split; [exact B|]. intros R. apply colons_many. rewrite R in C. exact C.
Qed.
Lemma nsname_len : forall s n r, read_nsname s = Some (n, r) -> (length r < length s)%nat.
Proof.
  intros s n r H. destruct (read_nsname_sound _ _ _ H) as (-> & [N _] & _). apply name_nonempty in N.
  rewrite app_length. destruct n; [contradiction|]. cbn [length]. lia.
Qed.
End Names.
