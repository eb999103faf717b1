(** The decoder of encoding/xml: characters, names, references, texts. *)
From Coq Require Import List ZArith Lia Bool String.
From Verif.Model Require Import Base Str Der NetText Json Rrdp RrdpXml XmlLex.
From Verif.Spec Require Import JsonSpec XmlSpec XmlTextSpec.
From Verif.Proofs Require Import StrProofs JsonStr JsonSound.
Import ListNotations.
Open Scope Z_scope.

(** ** Characters *)
Lemma utf8_len : forall c, (1 <= length (utf8 c))%nat.
Proof. intros c. unfold utf8. repeat match goal with |- context [if ?q then _ else _] => destruct q end; cbn [length]; lia. Qed.
Lemma next_utf8 : forall c s, scalar c -> next_rune (utf8 c ++ s) = Some (c, s).
Proof.
  intros c s H. destruct (Z.ltb_spec c 128) as [L|L].
  { rewrite utf8_ascii by exact L. cbn [app next_rune]. replace (c <? 128) with true by lia. reflexivity. }
  destruct (utf8_shape c H L s) as [(b & x & E & B & R)|[(b & x & y & E & B & R)|(b & x & y & z & E & B & R)]];
    rewrite E in R |- *; cbn [app] in R |- *; unfold next_rune; rewrite R; replace (b <? 128) with false by lia; cbv iota; do 2 f_equal;
    unfold utf8 in E; destruct H as [H _];
    replace (c <? 128) with false in E by lia; destruct (c <? 2048) eqn:E1; try discriminate E;
    destruct (c <? 65536) eqn:E2; try discriminate E; 
    pose proof (f_equal (fun l => nth 0 l 0) E) as F0; pose proof (f_equal (fun l => nth 1 l 0) E) as F1;
    pose proof (f_equal (fun l => nth 2 l 0) E) as F2; pose proof (f_equal (fun l => nth 3 l 0) E) as F3;
    cbn [nth] in F0, F1, F2, F3; clear - H L E1 E2 F0 F1 F2 F3; subst; Z.div_mod_to_equations; lia.
Qed.
Lemma next_sound : forall s c r, next_rune s = Some (c, r) -> 0 <= c -> scalar c /\ s = utf8 c ++ r.
Proof.
  intros s c r H Hc. destruct s as [|b s]; [discriminate H|].
  destruct (Z.ltb_spec b 128) as [L|L].
  { unfold next_rune in H. replace (b <? 128) with true in H by lia. injection H as <- <-.
    rewrite utf8_ascii by exact L. split; [unfold scalar; lia|reflexivity]. }
  destruct (rune_more (b :: s)) as [k|] eqn:R.
  - destruct (rune_some b s k L R) as (c' & r' & Sc & _ & E & _). rewrite E in H. rewrite next_utf8 in H by exact Sc.
    injection H as <- <-. auto.
  - exfalso. unfold next_rune in H. rewrite R in H. replace (b <? 128) with false in H by lia. discriminate H.
Qed.

Section All.
Variable P : Z -> Prop.
Variable ok : Z -> bool.
Hypothesis same : forall c, ok c = true <-> 0 <= c /\ P c.
Lemma runes_chars : forall n s, runes_all ok n s = true -> chars P s.
Proof.
  induction n as [|n IH]; intros [|b s] H; try constructor; try discriminate H.
  cbn [runes_all] in H. destruct (next_rune (b :: s)) as [[c r]|] eqn:E; [|discriminate H].
  apply andb_prop in H. destruct H as [H1 H2]. apply same in H1. destruct H1 as [H0 H1].
  destruct (next_sound _ _ _ E H0) as [Sc Es]. rewrite Es. constructor; auto.
Qed.
Lemma chars_runes : forall s, chars P s -> forall n, (length s <= n)%nat -> runes_all ok n s = true.
Proof.
  induction 1 as [|c s Sc Pc _ IH]; intros n L; [destruct n; reflexivity|].
  pose proof (utf8_len c). rewrite app_length in L. destruct n as [|n]; [lia|].
  assert (E : runes_all ok (S n) (utf8 c ++ s) = (ok c && runes_all ok n s)).
  { destruct (utf8 c ++ s) eqn:Q; [apply (f_equal (@length Z)) in Q; rewrite app_length in Q; cbn [length] in Q; lia|].
    cbn [runes_all]. rewrite <- Q, next_utf8 by exact Sc. reflexivity. }
  rewrite E, IH by lia. rewrite (proj2 (same c)); [reflexivity|]. split; [unfold scalar in Sc; lia|exact Pc].
Qed.
End All.

Lemma chars_imp : forall (P Q : Z -> Prop) s, (forall c, scalar c -> P c -> Q c) -> chars P s -> chars Q s.
Proof. intros P Q s H. induction 1; constructor; auto. Qed.

Lemma xml_char_iff : forall c, xml_char c = true <-> 0 <= c /\ (allowed c /\ scalar c).
Proof.
  intros c. unfold xml_char, in_range, allowed, scalar. rewrite !orb_true_iff, !andb_true_iff, !Z.leb_le, !Z.eqb_eq. lia.
Qed.
Lemma chars_scalar : forall P s, chars P s <-> chars (fun c => P c /\ scalar c) s.
Proof. intros P s. split; induction 1; constructor; tauto. Qed.
Lemma text_chars : forall d, runes_all xml_char (length d) d = true <-> chars allowed d.
Proof.
  intros d. rewrite chars_scalar. split.
  - apply runes_chars, xml_char_iff.
  - intros H. refine (chars_runes _ _ xml_char_iff _ H _ _). lia.
Qed.

(** ** Spans *)
Lemma span_app : forall p a b, forallb p a = true -> (forall x r, b = x :: r -> p x = false) -> span p (a ++ b) = (a, b).
Proof.
  induction a as [|x a IH]; intros b H Hb; cbn [app span].
  - destruct b as [|x r]; [reflexivity|]. cbn [span]. rewrite (Hb x r eq_refl). reflexivity.
  - cbn [forallb] in H. apply andb_prop in H. destruct H as [Hx Ha]. rewrite Hx, (IH b Ha Hb). reflexivity.
Qed.
Lemma span_sound : forall p s a b, span p s = (a, b) -> s = a ++ b /\ forallb p a = true /\ (forall x r, b = x :: r -> p x = false).
Proof.
  induction s as [|x s IH]; intros a b H; cbn [span] in H.
  - injection H as <- <-. repeat split; auto. intros; discriminate.
  - destruct (p x) eqn:Px.
    + destruct (span p s) as [u v] eqn:E. injection H as <- <-. destruct (IH u v eq_refl) as (-> & F & G).
      cbn [app forallb]. rewrite Px. auto.
    + injection H as <- <-. repeat split; auto. intros y r E. injection E as <- <-. exact Px.
Qed.

Lemma space_in : forall b, xml_space b = true <-> In b [32; 9; 10; 13].
Proof. intros b. unfold xml_space. rewrite !orb_true_iff, !Z.eqb_eq. cbn [In]. lia. Qed.
Lemma blank_forallb : forall w, blank w <-> forallb xml_space w = true.
Proof.
  intros w. unfold blank. rewrite forallb_forall, Forall_forall. split; intros H x Hx; apply space_in; auto.
Qed.
Lemma spaces_app : forall w s, blank w -> (forall b r, s = b :: r -> ~ In b [32; 9; 10; 13]) -> spaces (w ++ s) = s.
Proof.
  intros w s Hw Hs. unfold spaces. rewrite span_app; [reflexivity|apply blank_forallb, Hw|].
  intros x r E. specialize (Hs x r E). destruct (xml_space x) eqn:Q; [apply space_in in Q; contradiction|reflexivity].
Qed.
Lemma spaces_sound : forall s, exists w, blank w /\ s = w ++ spaces s /\ (forall b r, spaces s = b :: r -> ~ In b [32; 9; 10; 13]).
Proof.
  intros s. unfold spaces. destruct (span xml_space s) as [w r] eqn:E. destruct (span_sound _ _ _ _ E) as (A & B & C).
  exists w. cbn [snd]. split; [apply blank_forallb, B|]. split; [exact A|].
  intros b q Q I. apply space_in in I. rewrite (C b q Q) in I. discriminate I.
Qed.
Lemma spaces_len : forall s, (length (spaces s) <= length s)%nat.
Proof. intros s. destruct (spaces_sound s) as (w & _ & E & _). rewrite E at 2. rewrite app_length. lia. Qed.

(** ** References *)
Lemma digits_value : forall base val (digit : Z -> Z -> Prop) s,
  (forall c, In c s -> digit (val c) c) -> exists ds, Forall2 digit ds s /\ horner base val s = fold_left (fun a d => a * base + d) ds 0.
Proof.
  intros base val digit s H. exists (map val s). split.
  - induction s as [|c s IH]; cbn [map]; constructor; [apply H; left; reflexivity|apply IH; intros; apply H; right; assumption].
  - unfold horner. generalize 0. clear H. induction s as [|c s IH]; intros a; [reflexivity|]. cbn [fold_left map]. apply IH.
Qed.
Lemma digits_read : forall base val (digit : Z -> Z -> Prop) ds s, (forall n c, digit n c -> val c = n) ->
  Forall2 digit ds s -> horner base val s = fold_left (fun a d => a * base + d) ds 0.
Proof.
  intros base val digit ds s H F. unfold horner. generalize 0. induction F as [|d c ds s Hd _ IH]; intros a; [reflexivity|].
  cbn [fold_left]. rewrite (H _ _ Hd). apply IH.
Qed.
Lemma horner_pos : forall base val ds, 0 <= base -> (forall c, In c ds -> 0 <= val c) -> 0 <= horner base val ds.
Proof.
  intros base val ds Hb H. unfold horner. assert (G : forall a, 0 <= a -> 0 <= fold_left (fun a c => a * base + val c) ds a).
  { clear - Hb H. induction ds as [|c ds IH]; intros a Ha; [exact Ha|]. cbn [fold_left]. apply IH.
    - intros; apply H; right; assumption.
    - assert (0 <= val c) by (apply H; left; reflexivity). nia. }
  apply G. lia.
Qed.
Lemma rune_text_char : forall n, 0 <= n <= 1114111 -> character n (rune_text n).
Proof.
  intros n H. unfold rune_text, character, scalar. destruct (in_range 55296 57343 n) eqn:R; rewrite utf8_is_rune.
  - apply in_range_spec in R. right. split; [lia|reflexivity].
  - left. split; [|reflexivity]. split; [lia|]. intro Q. rewrite in_range_true in R by lia. discriminate R.
Qed.
Lemma character_rune : forall n t, character n t -> 0 <= n <= 1114111 /\ t = rune_text n.
Proof.
  intros n t [[S E]|[S E]]; unfold rune_text; [unfold scalar in S|]; (split; [lia|]).
  - rewrite in_range_false by lia. exact E.
  - rewrite in_range_true by lia. exact E.
Qed.
Lemma dec_digit_iff : forall c, is_digit c = true <-> dec_digit (dval c) c.
Proof. intros c. unfold is_digit, dec_digit, dval. rewrite andb_true_iff, !Z.leb_le. lia. Qed.
Lemma hex_digit_ok : forall c, XmlLex.hex_digit c = true -> hex_digit (hex_val c) c.
Proof.
  intros c H. unfold XmlLex.hex_digit in H. rewrite !orb_true_iff, !in_range_spec in H. unfold hex_digit, hex_val.
  destruct (Z.leb_spec c 57); [|destruct (Z.leb_spec c 70)]; lia.
Qed.
Lemma hex_digit_val : forall n c, hex_digit n c -> XmlLex.hex_digit c = true /\ hex_val c = n.
Proof.
  intros n c H. unfold hex_digit in H. unfold XmlLex.hex_digit, hex_val. rewrite !orb_true_iff, !in_range_spec.
  split; [lia|]. destruct (Z.leb_spec c 57); [|destruct (Z.leb_spec c 70)]; lia.
Qed.

Lemma number_sound : forall base digit val (D : Z -> Z -> Prop) s t, 0 <= base -> (forall c, digit c = true -> D (val c) c) ->
  (forall n c, D n c -> 0 <= n) -> number_entity digit val base s = Some t -> exists n, number base D s n /\ character n t.
Proof.
  intros base digit val D s t Hb HD HP H. destruct s as [|c s]; [discriminate H|]. unfold number_entity in H.
  destruct (forallb digit (c :: s)) eqn:F; [|discriminate H]. rewrite forallb_forall in F.
  destruct (Z.leb_spec (horner base val (c :: s)) 1114111) as [L|L]; [|discriminate H]. injection H as <-.
  exists (horner base val (c :: s)). split.
  - split; [discriminate|]. apply digits_value. intros x Hx. apply HD, F, Hx.
  - apply rune_text_char. split; [|exact L]. apply horner_pos; [exact Hb|]. intros x Hx. exact (HP _ _ (HD x (F x Hx))).
Qed.
Lemma number_read : forall base digit val (D : Z -> Z -> Prop) s n t,
  (forall n c, D n c -> digit c = true /\ val c = n) ->
  number base D s n -> character n t -> number_entity digit val base s = Some t.
Proof.
  intros base digit val D s n t HD (N & ds & F & E) C. destruct (character_rune n t C) as [L ->].
  unfold number_entity. destruct s as [|c s]; [contradiction|].
  replace (forallb digit (c :: s)) with true.
  - rewrite (digits_read base val D ds (c :: s)) by (try exact F; intros; apply HD; assumption). rewrite <- E.
    replace (n <=? 1114111) with true by lia. reflexivity.
  - symmetry. clear N E C. revert F. generalize (c :: s) as q. intros q F. induction F as [|d x ds' q' Hd _ IH]; [reflexivity|].
    cbn [forallb]. rewrite IH. destruct (HD _ _ Hd) as [-> _]. reflexivity.
Qed.

Lemma entity_ref : forall e t, entity e = Some t -> ref e t.
Proof.
  intros e t H. unfold entity in H. destruct (has_prefix e (str "#x")) eqn:P1.
  { apply prefix_parts in P1. cbn [str length Z.of_N] in P1. change (e = 35 :: 120 :: skipn 2 e) in P1. rewrite P1.
    destruct (number_sound 16 _ _ hex_digit _ t ltac:(lia) hex_digit_ok ltac:(unfold hex_digit; intros; lia) H) as (n & N & C).
    econstructor; eassumption. }
  destruct (has_prefix e (str "#")) eqn:P2.
  { apply prefix_parts in P2. change (e = 35 :: skipn 1 e) in P2. rewrite P2.
    destruct (number_sound 10 _ _ dec_digit _ t ltac:(lia) (fun c => proj1 (dec_digit_iff c)) ltac:(unfold dec_digit; intros; lia) H) as (n & N & C).
    econstructor; eassumption. }
  repeat match type of H with
  | (if beq ?a ?b then _ else _) = _ => let E := fresh in destruct (beq a b) eqn:E; [apply beq_eq in E; subst; injection H as <-; constructor|]
  end. discriminate H.
Qed.
Lemma ref_entity : forall e t, ref e t -> entity e = Some t.
Proof.
  intros e t []; try reflexivity.
  - (* decimal *) assert (A : has_prefix (35 :: s) (str "#x") = false).
    { destruct H as (N & ds & F & _). destruct s as [|c s]; [contradiction|]. inversion F as [|d x ds' s' Hd F' E1 E2].
      unfold dec_digit in Hd. cbn. replace (c =? 120) with false by lia. reflexivity. }
    unfold entity. rewrite A. pose proof (has_prefix_app (str "#") s) as B. change (str "#" ++ s) with (35 :: s) in B. rewrite B. cbn [skipn].
    refine (number_read 10 _ _ dec_digit _ _ _ _ H H0). unfold dec_digit, is_digit, dval. intros n' c.
    rewrite andb_true_iff, !Z.leb_le. lia.
  - unfold entity. pose proof (has_prefix_app (str "#x") s) as B. change (str "#x" ++ s) with (35 :: 120 :: s) in B. rewrite B. cbn [skipn].
    refine (number_read 16 _ _ hex_digit _ _ _ _ H H0). exact hex_digit_val.
Qed.
(** References contain no semicolon. *)
Lemma ref_plain : forall e t, ref e t -> ~ In 59 e.
Proof.
  intros e t []; try (cbn; lia).
  - destruct H as (_ & ds & F & _). intros [Q|Q]; [lia|]. clear - F Q. induction F as [|d c ds s Hd _ IH]; [destruct Q|].
    destruct Q as [Q|Q]; [unfold dec_digit in Hd; lia|auto].
  - destruct H as (_ & ds & F & _). intros [Q|[Q|Q]]; [lia|lia|]. clear - F Q. induction F as [|d c ds s Hd _ IH]; [destruct Q|].
    destruct Q as [Q|Q]; [unfold hex_digit in Hd; lia|auto].
Qed.

(** ** Texts *)
Definition stop_of (quote : option Z) (cd : bool) : list Z :=
  if cd then [] else match quote with Some q => [60; 38; q] | None => [60; 38] end.
Definition quote_fine (quote : option Z) (cd : bool) : Prop :=
  match quote with Some q => (q = 34 \/ q = 39) /\ cd = false | None => True end.

Lemma infix_cons : forall p b s, ~ infix p (b :: s) -> ~ infix p s.
Proof. intros p b s H (u & v & E). apply H. exists (b :: u), v. rewrite E. reflexivity. Qed.
Lemma infix_app : forall p a s, ~ infix p (a ++ s) -> ~ infix p s.
Proof. induction a as [|b a IH]; intros s H; [exact H|]. apply IH, (infix_cons p b). exact H. Qed.
Lemma not_close : forall b0 b1 b s, ~ infix (str "]]>") (b0 :: b1 :: b :: s) -> (b0 =? 93) && (b1 =? 93) && (b =? 62) = false.
Proof.
  intros b0 b1 b s H. destruct (Z.eqb_spec b0 93); [|reflexivity]. destruct (Z.eqb_spec b1 93); [|reflexivity].
  destruct (Z.eqb_spec b 62); [|reflexivity]. subst. exfalso. apply H. exists [], s. reflexivity.
Qed.
Lemma zero_infix : forall s, infix (str "]]>") (0 :: 0 :: s) <-> infix (str "]]>") s.
Proof.
  intros s. split; [|intros (a & b & E); exists (0 :: 0 :: a), b; rewrite E; reflexivity].
  intros (a & b & E). destruct a as [|x a]; [discriminate E|]. injection E as _ E.
  destruct a as [|y a]; [discriminate E|]. injection E as _ E. exists a, b. exact E.
Qed.

Lemma amp_read : forall quote cd e' e s, ~ In 59 e' ->
  text_go quote cd (Some e) 0 0 (e' ++ 59 :: s) =
  match entity (e ++ e') with Some t => pre_text t (text_go quote cd None 0 0 s) | None => None end.
Proof.
  induction e' as [|b e' IH]; intros e s H; cbn [app text_go].
  - cbn [Z.eqb]. rewrite app_nil_r. reflexivity.
  - destruct (Z.eqb_spec b 59) as [->|N]; [exfalso; apply H; left; reflexivity|].
    rewrite IH by (intro; apply H; right; assumption). rewrite <- app_assoc. reflexivity.
Qed.

Lemma pre_pre : forall a b x, pre_text a (pre_text b x) = pre_text (a ++ b) x.
Proof. intros a b [[d r]|]; cbn [pre_text]; [rewrite app_assoc|]; reflexivity. Qed.

(** One octet that is not special. *)
Lemma text_octet : forall quote cd b0 b1 b s, quote_fine quote cd ->
  (quote = None -> ~ infix (str "]]>") (b0 :: b1 :: b :: s)) -> ~ In b (stop_of quote cd) -> forall tail,
  text_go quote cd None b0 b1 (b :: tail) =
  pre_text (if b =? 13 then [10] else if (b1 =? 13) && (b =? 10) then [] else [b]) (text_go quote cd None b1 b tail).
Proof.
  intros quote cd b0 b1 b s Q C N tail. cbn [text_go].
  replace (match quote with None => _ | Some _ => false end) with false
    by (destruct quote; [reflexivity|symmetry; apply (not_close _ _ _ s), C; reflexivity]).
  cbv iota. unfold stop_of in N. unfold quote_fine in Q. destruct cd.
  - rewrite !andb_false_r. destruct quote; [destruct Q as [_ Q]; discriminate Q|reflexivity].
  - replace ((b =? 60) && negb false) with false by (destruct (Z.eqb_spec b 60) as [->|]; [exfalso; apply N; destruct quote; cbn; auto|reflexivity]).
    replace ((b =? 38) && negb false) with false by (destruct (Z.eqb_spec b 38) as [->|]; [exfalso; apply N; destruct quote; cbn; auto|reflexivity]).
    replace (match quote with Some q => b =? q | None => false end) with false; [reflexivity|].
    destruct quote as [q|]; [|reflexivity]. destruct (Z.eqb_spec b q) as [->|]; [exfalso; apply N; cbn; auto|reflexivity].
Qed.

Lemma text_read : forall quote cd x d, quote_fine quote cd -> reads (stop_of quote cd) (cd = false) x d ->
  forall b0 b1 tail, (quote = None -> ~ infix (str "]]>") (b0 :: b1 :: x)) ->
  (b1 = 13 -> ~ prefix [10] (x ++ tail)) -> ~ prefix [10] tail ->
  exists b0' b1', (b1' = 13 -> x <> [] \/ b1 = 13) /\
    text_go quote cd None b0 b1 (x ++ tail) = pre_text d (text_go quote cd None b0' b1' tail).
Proof.
  intros quote cd x d Q R. assert (N13 : ~ In 13 (stop_of quote cd)).
  { unfold stop_of, quote_fine in *. destruct cd; [intros []|]. destruct quote as [q|]; cbn; [|lia]. lia. }
  assert (N10 : ~ In 10 (stop_of quote cd)).
  { unfold stop_of, quote_fine in *. destruct cd; [intros []|]. destruct quote as [q|]; cbn; [|lia]. lia. }
  induction R as [|b s d N _ IH|s d _ IH|s d P _ IH|e t s d Rf He _ IH]; intros b0 b1 tail C H1 H2.
  - exists b0, b1. split; [auto|]. cbn [app]. destruct (text_go quote cd None b0 b1 tail) as [[? ?]|]; reflexivity.
  - assert (Nb : ~ In b (stop_of quote cd)) by (intro; apply N; right; assumption).
    assert (N' : b <> 13) by (intro; subst; apply N; left; reflexivity).
    cbn [app]. rewrite (text_octet quote cd b0 b1 b s Q C Nb).
    destruct (IH b1 b tail) as (c0 & c1 & _ & E);
      [intros Z; exact (infix_cons _ _ _ (C Z))|intros; contradiction|exact H2|].
    exists c0, c1. split; [left; discriminate|]. rewrite E, pre_pre.
    replace (b =? 13) with false by lia.
    replace ((b1 =? 13) && (b =? 10)) with false; [reflexivity|].
    destruct (Z.eqb_spec b1 13) as [E1|]; [|reflexivity]. destruct (Z.eqb_spec b 10) as [E2|]; [|reflexivity].
    exfalso. apply (H1 E1). subst. eexists. reflexivity.
  - cbn [app]. rewrite (text_octet quote cd b0 b1 13 (10 :: s) Q C N13). cbn [Z.eqb Pos.eqb].
    rewrite (text_octet quote cd b1 13 10 s Q (fun Z => infix_cons _ _ _ (C Z)) N10). cbn [Z.eqb Pos.eqb andb].
    destruct (IH 13 10 tail) as (c0 & c1 & _ & E);
      [intros Z; exact (infix_cons _ _ _ (infix_cons _ _ _ (C Z)))|intros Z; discriminate Z|exact H2|].
    exists c0, c1. split; [left; discriminate|]. rewrite E, !pre_pre. reflexivity.
  - cbn [app]. rewrite (text_octet quote cd b0 b1 13 s Q C N13). cbn [Z.eqb Pos.eqb].
    destruct (IH b1 13 tail) as (c0 & c1 & _ & E);
      [intros Z; exact (infix_cons _ _ _ (C Z))| |exact H2|].
    { intros _ (r & F). destruct s as [|y s]; [apply H2; exists r; exact F|]. apply P. injection F as -> _. exists s. reflexivity. }
    exists c0, c1. split; [left; discriminate|]. rewrite E, pre_pre. reflexivity.
  - subst cd. cbn [app]. rewrite <- app_assoc. cbn [app].
    assert (E0 : text_go quote false None b0 b1 (38 :: e ++ 59 :: s ++ tail) = text_go quote false (Some []) 0 0 (e ++ 59 :: s ++ tail)).
    { cbn [text_go]. replace (match quote with None => _ | Some _ => false end) with false
        by (destruct quote; [reflexivity|rewrite andb_false_r; reflexivity]).
      cbn [Z.eqb Pos.eqb andb negb]. cbv iota. destruct quote as [q|]; [|reflexivity].
      unfold quote_fine in Q. destruct Q as [[E3|E3] _]; subst q; reflexivity. }
    rewrite E0, amp_read by exact (ref_plain e t He). cbn [app]. rewrite (ref_entity e t He).
    destruct (IH 0 0 tail) as (c0 & c1 & _ & E);
      [|intros Z; discriminate Z|exact H2|].
    { intros Z W. apply (C Z). apply (proj1 (zero_infix _)) in W. destruct W as (u & v & W). exists (b0 :: b1 :: 38 :: e ++ 59 :: u), v.
      rewrite W. cbn [app]. rewrite <- app_assoc. reflexivity. }
    exists c0, c1. split; [left; discriminate|]. rewrite E, pre_pre. reflexivity.
Qed.

(** What is read is of that form. *)
Definition finish (quote : option Z) (cd : bool) (b0 b1 : Z) (x s r : bytes) : Prop :=
  match quote with
  | Some q => s = x ++ q :: r \/ (s = x /\ r = [])
  | None => if cd then s = x ++ 62 :: r /\ (exists y, b0 :: b1 :: x = y ++ [93; 93])
            else s = x ++ r /\ (r = [] \/ prefix [60] r)
  end.
Lemma pre_text_some : forall t x d r, pre_text t x = Some (d, r) -> exists d', x = Some (d', r) /\ d = t ++ d'.
Proof. intros t [[d' r']|] d r H; [|discriminate H]. injection H as <- <-. eauto. Qed.
Lemma amp_sound : forall quote cd s e d r, text_go quote cd (Some e) 0 0 s = Some (d, r) ->
  exists e' s' t d', s = e' ++ 59 :: s' /\ entity (e ++ e') = Some t /\
    text_go quote cd None 0 0 s' = Some (d', r) /\ d = t ++ d'.
Proof.
  induction s as [|b s IH]; intros e d r H; cbn [text_go] in H; [discriminate H|].
  destruct (Z.eqb_spec b 59) as [->|N].
  - destruct (entity e) as [t|] eqn:E; [|discriminate H]. apply pre_text_some in H. destruct H as (d' & H & ->).
    exists [], s, t, d'. rewrite app_nil_r. auto.
  - destruct (IH _ _ _ H) as (e' & s' & t & d' & -> & E & T & ->). exists (b :: e'), s', t, d'.
    rewrite <- app_assoc in E. auto.
Qed.
Lemma finish_cons : forall quote cd b0 b1 b x s r, finish quote cd b1 b x s r -> finish quote cd b0 b1 (b :: x) (b :: s) r.
Proof.
  intros quote cd b0 b1 b x s r H. unfold finish in *. destruct quote as [q|].
  - destruct H as [->|[-> ->]]; auto.
  - destruct cd; destruct H as [-> H]; (split; [reflexivity|]); [|exact H].
    destruct H as [y E]. exists (b0 :: y). rewrite E. reflexivity.
Qed.
Lemma infix_two : forall b0 b1, ~ infix (str "]]>") [b0; b1].
Proof. intros b0 b1 (u & v & E). apply (f_equal (@length Z)) in E. rewrite !app_length in E. cbn in E. lia. Qed.
Lemma infix_grow : forall b0 b1 b x, (b0 =? 93) && (b1 =? 93) && (b =? 62) = false ->
  ~ infix (str "]]>") (b1 :: b :: x) -> ~ infix (str "]]>") (b0 :: b1 :: b :: x).
Proof.
  intros b0 b1 b x H N (u & v & E). destruct u as [|w u].
  - cbn in E. injection E as -> -> -> _. discriminate H.
  - injection E as _ E. apply N. exists u, v. exact E.
Qed.
Lemma text_sound : forall n quote cd s b0 b1 d r, (length s <= n)%nat -> quote_fine quote cd ->
  text_go quote cd None b0 b1 s = Some (d, r) -> (b1 = 13 -> ~ prefix [10] s) ->
  exists x, finish quote cd b0 b1 x s r /\ reads (stop_of quote cd) (cd = false) x d /\
    (quote = None -> ~ infix (str "]]>") (b0 :: b1 :: x)).
Proof.
  induction n as [|n IH]; intros quote cd s b0 b1 d r L Q H P.
  { destruct s; [|cbn [length] in L; lia]. cbn [text_go] in H. destruct cd; [discriminate H|]. injection H as <- <-.
    exists []. split; [|split; [constructor|intros _; apply infix_two]]. unfold finish. destruct quote; auto. }
  destruct s as [|b s].
  { cbn [text_go] in H. destruct cd; [discriminate H|]. injection H as <- <-.
    exists []. split; [|split; [constructor|intros _; apply infix_two]]. unfold finish. destruct quote; auto. }
  cbn [length] in L. assert (H0 := H). cbn [text_go] in H.
  destruct (match quote with None => (b0 =? 93) && (b1 =? 93) && (b =? 62) | Some _ => false end) eqn:C.
  { destruct quote; [discriminate C|]. destruct cd; [|discriminate H]. injection H as <- <-.
    apply andb_prop in C. destruct C as [C C3]. apply andb_prop in C. destruct C as [C1 C2]. apply Z.eqb_eq in C1, C2, C3. subst.
    exists []. split; [split; [reflexivity|exists []; reflexivity]|]. split; [constructor|intros _; apply infix_two]. }
  destruct ((b =? 60) && negb cd) eqn:Lt.
  { destruct quote; [discriminate H|]. injection H as <- <-. apply andb_prop in Lt. destruct Lt as [Lt Ncd].
    apply Z.eqb_eq in Lt. apply negb_true_iff in Ncd. subst.
    exists []. split; [split; [reflexivity|right; exists s; reflexivity]|]. split; [constructor|intros _; apply infix_two]. }
  destruct (match quote with Some q => b =? q | None => false end) eqn:Qt.
  { destruct quote as [q|]; [|discriminate Qt]. apply Z.eqb_eq in Qt. subst. injection H as <- <-.
    exists []. split; [left; reflexivity|]. split; [constructor|intros Z; discriminate Z]. }
  destruct ((b =? 38) && negb cd) eqn:Am.
  { apply andb_prop in Am. destruct Am as [Am Ncd]. apply Z.eqb_eq in Am. apply negb_true_iff in Ncd. subst.
    destruct (amp_sound _ _ _ _ _ _ H) as (e & s' & t & d' & -> & E & T & ->). cbn [app] in E.
    rewrite app_length in L. cbn [length] in L.
    destruct (IH quote false s' 0 0 d' r) as (x & F & R & N); [lia|exact Q|exact T|intros Z; discriminate Z|].
    exists (38 :: e ++ 59 :: x). split; [|split].
    - unfold finish in *. destruct quote as [q|].
      + destruct F as [->|[-> ->]]; [left|right]; cbn [app]; rewrite <- ?app_assoc; auto.
      + destruct F as [-> F]. split; [|exact F]. cbn [app]. rewrite <- app_assoc. reflexivity.
    - apply re_ref; [reflexivity|exact (entity_ref _ _ E)|exact R].
    - intros Z. specialize (N Z). rewrite zero_infix in N. apply entity_ref in E.
      apply infix_grow; [rewrite andb_false_r; reflexivity|].
      assert (G : forall y, (forall b, In b y -> b <> 62) -> forall a c, ~ infix (str "]]>") (a :: c :: y ++ 59 :: x)).
      { clear - N. induction y as [|b y IH]; intros F a c; cbn [app].
        - apply infix_grow; [rewrite andb_false_r; reflexivity|].
          intros (u & v & W). destruct u as [|w u]; [cbn in W; discriminate W|]. injection W as _ W.
          destruct u as [|w' u]; [discriminate W|]. injection W as _ W. apply N. exists u, v. exact W.
        - apply infix_grow; [|apply IH; intros; apply F; right; assumption].
          rewrite andb_comm. replace (b =? 62) with false by (assert (b <> 62) by (apply F; left; reflexivity); lia). reflexivity. }
      apply G. clear - E. intros b I. destruct E; try (cbn in I; lia).
      + destruct H as (_ & ds & F & _). destruct I as [<-|I]; [lia|]. clear - F I. induction F as [|w y ds s Hd _ IH]; [destruct I|].
        destruct I as [<-|I]; [unfold dec_digit in Hd; lia|auto].
      + destruct H as (_ & ds & F & _). destruct I as [<-|[<-|I]]; [lia|lia|]. clear - F I. induction F as [|w y ds s Hd _ IH]; [destruct I|].
        destruct I as [<-|I]; [unfold hex_digit in Hd; lia|auto]. }
  assert (Nb : ~ In b (stop_of quote cd)).
  { unfold stop_of. destruct cd; [intros []|]. cbn [negb] in Lt, Am. rewrite andb_true_r in Lt, Am.
    destruct quote as [q|]; cbn; lia. }
  assert (C' : (quote = None -> (b0 =? 93) && (b1 =? 93) && (b =? 62) = false)) by (intros ->; exact C).
  apply pre_text_some in H. destruct H as (d' & H & ->).
  destruct (Z.eqb_spec b 13) as [->|N13].
  - destruct s as [|y s].
    { destruct (IH quote cd [] b1 13 d' r) as (x & F & R & N); [cbn [length]; lia|exact Q|exact H|intros _ (v & W); discriminate W|].
      exists (13 :: x). split; [exact (finish_cons _ _ b0 b1 13 _ _ _ F)|]. split.
      - apply re_cr; [|exact R]. assert (X : x = []).
        { unfold finish in F. destruct quote; [destruct F as [F|[F _]]; [destruct x; discriminate F|auto]|].
          destruct cd; destruct F as [F _]; destruct x; auto; discriminate F. }
        subst. intros (v & W). discriminate W.
      - intros Z. apply infix_grow; auto. }
    destruct (Z.eqb_spec y 10) as [->|Ny].
    + (* CR LF *) assert (N10 : ~ In 10 (stop_of quote cd)).
      { unfold stop_of, quote_fine in *. destruct cd; [intros []|]. destruct quote as [q|]; cbn; lia. }
      assert (N2 : quote = None -> ~ infix (str "]]>") [b1; 13; 10]).
      { intros _. apply infix_grow; [rewrite andb_false_r; reflexivity|apply infix_two]. }
      rewrite (text_octet quote cd b1 13 10 [] Q N2 N10) in H. cbn [Z.eqb Pos.eqb andb] in H.
      apply pre_text_some in H. destruct H as (d2 & H & ->). cbn [length] in L.
      destruct (IH quote cd s 13 10 d2 r) as (x & F & R & N); [lia|exact Q|exact H|intros Z; discriminate Z|].
      exists (13 :: 10 :: x). split; [exact (finish_cons _ _ _ _ _ _ _ _ (finish_cons _ _ _ _ _ _ _ _ F))|]. split.
      * apply re_crlf. exact R.
      * intros Z. apply infix_grow; [auto|]. apply infix_grow; [rewrite andb_false_r; reflexivity|auto].
    + destruct (IH quote cd (y :: s) b1 13 d' r) as (x & F & R & N);
        [lia|exact Q|exact H|intros _ (v & W); injection W as -> _; congruence|].
      exists (13 :: x). split; [exact (finish_cons _ _ b0 b1 13 _ _ _ F)|]. split.
      * apply re_cr; [|exact R]. intros (v & W). apply Ny. unfold finish in F. subst x. destruct quote as [q|].
        -- destruct F as [F|[F _]]; injection F as -> _; reflexivity.
        -- destruct cd; destruct F as [F _]; injection F as -> _; reflexivity.
      * intros Z. apply infix_grow; auto.
  - destruct (IH quote cd s b1 b d' r) as (x & F & R & N); [lia|exact Q|exact H|intros; contradiction|].
    exists (b :: x). split; [exact (finish_cons _ _ b0 b1 b _ _ _ F)|]. split.
    + replace ((b1 =? 13) && (b =? 10)) with false.
      * apply re_octet; [|exact R]. intros [W|W]; [congruence|contradiction].
      * destruct (Z.eqb_spec b1 13) as [E1|]; [|reflexivity]. destruct (Z.eqb_spec b 10) as [E2|]; [|reflexivity].
        exfalso. apply (P E1). subst. exists s. reflexivity.
    + intros Z. apply infix_grow; auto.
Qed.
