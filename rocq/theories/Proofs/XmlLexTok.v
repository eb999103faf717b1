(** The decoder of encoding/xml: each kind of token is read exactly if it has
    the form that the grammar demands. *)
From Coq Require Import List ZArith Lia Bool String.
From Verif.Model Require Import Base Str Der NetText Json Rrdp RrdpXml XmlLex.
From Verif.Spec Require Import JsonSpec XmlSpec XmlTextSpec.
From Verif.Proofs Require Import StrProofs JsonStr JsonSound XmlLexBase.
Import ListNotations.
Open Scope Z_scope.

Lemma hp_nil : forall s, has_prefix s [] = true.
Proof. intros [|b s]; reflexivity. Qed.
Lemma hp_cons : forall a s b p, has_prefix (a :: s) (b :: p) = (a =? b) && has_prefix s p.
Proof. reflexivity. Qed.

(** ** Texts *)
Lemma lt_no_lf : forall s : bytes, s = [] \/ prefix [60] s -> ~ prefix [10] s.
Proof. intros s [->|(u & ->)] (v & E); discriminate E. Qed.
Lemma text_chardata : forall x d s, chardata x d -> s = [] \/ prefix [60] s -> text None false (x ++ s) = Some (d, s).
Proof.
  intros x d s (N & R & C & A) H. unfold text.
  assert (R' : reads (stop_of None false) (false = false) x d).
  { clear - R. unfold stop_of. induction R; [constructor|apply re_octet; assumption|apply re_crlf; assumption|apply re_cr; assumption|apply re_ref; auto]. }
  destruct (text_read None false x d I R' 0 0 s) as (b0 & b1 & _ & E);
    [intros _; rewrite zero_infix; exact C|intros Z; discriminate Z|exact (lt_no_lf s H)|].
  rewrite E. replace (text_go None false None b0 b1 s) with (Some ([], s) : option (bytes * bytes)).
  - cbn [pre_text]. rewrite app_nil_r. rewrite (proj2 (text_chars d) A). reflexivity.
  - destruct H as [->|(u & ->)]; [reflexivity|]. cbn [app text_go]. rewrite andb_false_r. reflexivity.
Qed.
Lemma chardata_text : forall s d r, s <> [] -> ~ prefix [60] s -> text None false s = Some (d, r) ->
  exists x, s = x ++ r /\ chardata x d /\ (r = [] \/ prefix [60] r).
Proof.
  intros s d r N P H. unfold text in H. destruct (text_go None false None 0 0 s) as [[d' r']|] eqn:E; [|discriminate H].
  destruct (runes_all xml_char (length d') d') eqn:A; [|discriminate H]. injection H as <- <-. apply text_chars in A.
  destruct (text_sound (length s) None false s 0 0 d' r' (le_n _) I E) as (x & (-> & F) & R & C); [intros Z; discriminate Z|].
  exists x. split; [reflexivity|]. split; [|exact F]. split; [|split; [|split]].
  - intros ->. cbn [app] in *. destruct F; contradiction.
  - clear - R. unfold stop_of in R. induction R; [constructor|apply re_octet; assumption|apply re_crlf; assumption|apply re_cr; assumption|apply re_ref; auto].
  - rewrite <- zero_infix. apply C. reflexivity.
  - exact A.
Qed.

Lemma quoted_text : forall q x d s, q = 34 \/ q = 39 -> reads [60; 38; q] True x d -> chars allowed d ->
  text (Some q) false (x ++ q :: s) = Some (d, s).
Proof.
  intros q x d s Q R A. unfold text.
  assert (R' : reads (stop_of (Some q) false) (false = false) x d).
  { clear - R. unfold stop_of. induction R; [constructor|apply re_octet; assumption|apply re_crlf; assumption|apply re_cr; assumption|apply re_ref; auto]. }
  destruct (text_read (Some q) false x d (conj Q eq_refl) R' 0 0 (q :: s)) as (b0 & b1 & _ & E);
    [intros Z; discriminate Z|intros Z; discriminate Z|intros (v & W); injection W as -> _; lia|].
  rewrite E. replace (text_go (Some q) false None b0 b1 (q :: s)) with (Some ([], s) : option (bytes * bytes)).
  - cbn [pre_text]. rewrite app_nil_r. rewrite (proj2 (text_chars d) A). reflexivity.
  - cbn [text_go]. destruct Q as [Q|Q]; subst q; reflexivity.
Qed.
Lemma text_quoted : forall q s d r, q = 34 \/ q = 39 -> text (Some q) false s = Some (d, r) ->
  r = [] \/ exists x, s = x ++ q :: r /\ reads [60; 38; q] True x d /\ chars allowed d.
Proof.
  intros q s d r Q H. unfold text in H. destruct (text_go (Some q) false None 0 0 s) as [[d' r']|] eqn:E; [|discriminate H].
  destruct (runes_all xml_char (length d') d') eqn:A; [|discriminate H]. injection H as <- <-. apply text_chars in A.
  destruct (text_sound (length s) (Some q) false s 0 0 d' r' (le_n _) (conj Q eq_refl) E) as (x & F & R & _); [intros Z; discriminate Z|].
  destruct F as [->|[-> ->]]; [right|left; reflexivity]. exists x. split; [reflexivity|]. split; [|exact A].
  clear - R. unfold stop_of in R. induction R; [constructor|apply re_octet; assumption|apply re_crlf; assumption|apply re_cr; assumption|apply re_ref; auto].
Qed.
Lemma text_len : forall quote cd s d r, quote_fine quote cd -> text quote cd s = Some (d, r) -> (length r <= length s)%nat.
Proof.
  intros quote cd s d r Q H. unfold text in H. destruct (text_go quote cd None 0 0 s) as [[d' r']|] eqn:E; [|discriminate H].
  assert (r' = r) as <-.
  { match type of H with (if ?q then _ else _) = _ => destruct q end; [injection H as _ <-; reflexivity|discriminate H]. }
  destruct (text_sound (length s) quote cd s 0 0 d' r' (le_n _) Q E) as (x & F & _); [intros Z; discriminate Z|].
  unfold finish in F. destruct quote; [destruct F as [->|[-> ->]]|destruct cd; destruct F as [-> _]]; rewrite ?app_length; cbn [length]; lia.
Qed.

Lemma reads_end : forall x d, reads [] False x d -> forall y, x = y ++ [93; 93] -> exists d', d = d' ++ [93; 93] /\ reads [] False y d'.
Proof.
  induction 1 as [|b s d N R IH|s d R IH|s d P R IH|e t s d Rf He R IH]; intros y E; [destruct y; discriminate E| | | |destruct Rf].
  - destruct y as [|w y].
    { cbn [app] in E. injection E as -> ->. exists []. split; [|constructor]. f_equal.
      inversion R as [|b' s' d2 N' R2| | |]; subst. inversion R2; subst. reflexivity. }
    injection E as -> E. destruct (IH y E) as (d' & -> & R'). exists (w :: d'). split; [reflexivity|]. apply re_octet; assumption.
  - destruct y as [|w y]; [discriminate E|]. injection E as <- E. destruct y as [|w y]; [discriminate E|]. injection E as <- E.
    destruct (IH y E) as (d' & -> & R'). exists (10 :: d'). split; [reflexivity|]. apply re_crlf; assumption.
  - destruct y as [|w y]; [discriminate E|]. injection E as <- E. destruct (IH y E) as (d' & -> & R'). exists (10 :: d').
    split; [reflexivity|]. apply re_cr; [|assumption]. intros (v & ->). apply P. exists (v ++ [93; 93]). rewrite E. reflexivity.
Qed.
Lemma firstn_drop2 : forall (d : bytes) a b, firstn (length (d ++ [a; b]) - 2) (d ++ [a; b]) = d.
Proof.
  intros d a b. rewrite app_length. cbn [length]. replace (length d + 2 - 2)%nat with (length d) by lia.
  rewrite firstn_app, Nat.sub_diag, firstn_all. cbn [firstn]. apply app_nil_r.
Qed.
Lemma cdata_text : forall x d s, reads [] False x d -> ~ infix (str "]]>") x -> chars allowed d ->
  text None true (x ++ str "]]>" ++ s) = Some (d, s).
Proof.
  intros x d s R C A. unfold text.
  assert (R' : reads (stop_of None true) (true = false) x d).
  { clear - R. unfold stop_of. induction R; [constructor|apply re_octet; assumption|apply re_crlf; assumption|apply re_cr; assumption|contradiction]. }
  destruct (text_read None true x d I R' 0 0 (str "]]>" ++ s)) as (b0 & b1 & _ & E);
    [intros _; rewrite zero_infix; exact C|intros Z; discriminate Z|intros (v & W); discriminate W|].
  rewrite E. replace (text_go None true None b0 b1 (str "]]>" ++ s)) with (Some ([93; 93], s) : option (bytes * bytes)).
  - cbn [pre_text]. rewrite firstn_drop2, (proj2 (text_chars d) A). reflexivity.
  - change (str "]]>" ++ s) with (93 :: 93 :: 62 :: s). cbn [text_go].
    destruct (b0 =? 93), (b1 =? 93), (b1 =? 13); reflexivity.
Qed.
Lemma text_cdata : forall s d r, text None true s = Some (d, r) ->
  exists x, s = x ++ str "]]>" ++ r /\ reads [] False x d /\ ~ infix (str "]]>") x /\ chars allowed d.
Proof.
  intros s d r H. unfold text in H. destruct (text_go None true None 0 0 s) as [[d' r']|] eqn:E; [|discriminate H].
  destruct (runes_all xml_char (length (firstn (length d' - 2) d')) (firstn (length d' - 2) d')) eqn:A; [|discriminate H].
  injection H as <- <-. apply text_chars in A.
  destruct (text_sound (length s) None true s 0 0 d' r' (le_n _) I E) as (x & F & R & C); [intros Z; discriminate Z|].
  destruct F as [-> (y & Y)]. specialize (C eq_refl). rewrite zero_infix in C.
  assert (X : exists z, x = z ++ [93; 93]).
  { destruct y as [|a y]; [discriminate Y|]. injection Y as _ Y. destruct y as [|b y]; [discriminate Y|]. injection Y as _ Y. eauto. }
  destruct X as (z & ->).
  assert (R' : reads [] False (z ++ [93; 93]) d').
  { clear - R. unfold stop_of in R. remember (z ++ [93; 93]) as q. clear Heqq. induction R; [constructor|apply re_octet; assumption|apply re_crlf; assumption|apply re_cr; assumption|discriminate]. }
  destruct (reads_end _ _ R' z eq_refl) as (d2 & -> & R2). rewrite firstn_drop2 in *.
  exists z. split; [rewrite <- app_assoc; reflexivity|]. split; [exact R2|]. split; [|exact A].
  intros (u & v & W). apply C. exists u, (v ++ [93; 93]). rewrite W, <- !app_assoc. reflexivity.
Qed.

(** ** Comments *)
Lemma comment_read : forall x b0 b1 r, ~ infix (str "--") (b0 :: b1 :: x ++ [45]) ->
  comment_go b0 b1 (x ++ str "-->" ++ r) = Some r.
Proof.
  induction x as [|b x IH]; intros b0 b1 r H.
  - change ([] ++ str "-->" ++ r) with (45 :: 45 :: 62 :: r). cbn [comment_go].
    assert (A : (b1 =? 45) = false).
    { destruct (Z.eqb_spec b1 45) as [->|]; [|reflexivity]. exfalso. apply H. exists [b0], []. reflexivity. }
    rewrite A, !andb_false_r. cbn [andb]. change (45 =? 45) with true. reflexivity.
  - cbn [app comment_go]. assert (A : (b0 =? 45) && (b1 =? 45) = false).
    { destruct (Z.eqb_spec b0 45) as [->|]; [|reflexivity]. destruct (Z.eqb_spec b1 45) as [->|]; [|reflexivity].
      exfalso. apply H. eexists [], _. reflexivity. }
    rewrite A. apply IH. exact (infix_cons _ _ _ H).
Qed.
Lemma comment_sound : forall s b0 b1 r, comment_go b0 b1 s = Some r ->
  (b0 = 45 /\ b1 = 45 /\ s = 62 :: r) \/
  (b1 = 45 /\ b0 <> 45 /\ s = 45 :: 62 :: r) \/
  (exists x, s = x ++ str "-->" ++ r /\ ~ infix (str "--") (b0 :: b1 :: x ++ [45])).
Proof.
  induction s as [|b s IH]; intros b0 b1 r H; cbn [comment_go] in H; [discriminate H|].
  destruct ((b0 =? 45) && (b1 =? 45)) eqn:A.
  { apply andb_prop in A. destruct A as [A1 A2]. apply Z.eqb_eq in A1, A2. destruct (Z.eqb_spec b 62); [|discriminate H].
    injection H as <-. subst. auto. }
  assert (G : forall y, ~ infix (str "--") (b1 :: y) -> ~ infix (str "--") (b0 :: b1 :: y)).
  { intros y N (u & v & E). destruct u as [|w u]; [cbn in E; injection E as -> -> _; discriminate A|].
    injection E as _ E. apply N. exists u, v. exact E. }
  destruct (IH _ _ _ H) as [(-> & -> & ->)|[(-> & N & ->)|(x & -> & N)]].
  - right; left. repeat split; auto. intros ->. discriminate A.
  - right; right. exists []. split; [reflexivity|]. apply G. intros (u & v & E). apply N.
    destruct u as [|w u]; [cbn in E; injection E as -> _; reflexivity|]. injection E as _ E.
    destruct u as [|w2 u]; [discriminate E|]. injection E as _ E. destruct u; discriminate E.
  - right; right. exists (b :: x). split; [reflexivity|]. apply G. exact N.
Qed.
Lemma comment_iff : forall s r, comment_go 0 0 s = Some r <-> exists x, s = x ++ str "-->" ++ r /\ ~ infix (str "--") (x ++ [45]).
Proof.
  intros s r.
  assert (Z2 : forall y, ~ infix (str "--") y -> ~ infix (str "--") (0 :: 0 :: y)).
  { intros y N (u & v & E). destruct u as [|w u]; [discriminate E|]. injection E as _ E. destruct u as [|w2 u]; [discriminate E|].
    injection E as _ E. apply N. exists u, v. exact E. }
  split.
  - intros H. destruct (comment_sound _ _ _ _ H) as [(A & _)|[(A & _)|(x & E & N)]]; [discriminate A|discriminate A|].
    exists x. split; [exact E|]. exact (infix_cons _ _ _ (infix_cons _ _ _ N)).
  - intros (x & -> & N). apply comment_read, Z2, N.
Qed.

(** ** Processing instructions *)
Lemma pi_read : forall d b0 r, ~ infix (str "?>") (b0 :: d) -> pi_go b0 (d ++ str "?>" ++ r) = Some (d ++ str "?>", r).
Proof.
  induction d as [|b d IH]; intros b0 r H.
  - change ([] ++ str "?>" ++ r) with (63 :: 62 :: r). cbn [pi_go]. change (63 =? 62) with false. rewrite andb_false_r. reflexivity.
  - cbn [app pi_go]. assert (A : (b0 =? 63) && (b =? 62) = false).
    { destruct (Z.eqb_spec b0 63) as [->|]; [|reflexivity]. destruct (Z.eqb_spec b 62) as [->|]; [|reflexivity].
      exfalso. apply H. eexists [], _. reflexivity. }
    rewrite A, IH by exact (infix_cons _ _ _ H). reflexivity.
Qed.
Lemma pi_sound : forall s b0 d' r, pi_go b0 s = Some (d', r) ->
  (b0 = 63 /\ d' = [62] /\ s = 62 :: r) \/
  exists d, d' = d ++ str "?>" /\ s = d ++ str "?>" ++ r /\ ~ infix (str "?>") (b0 :: d).
Proof.
  induction s as [|b s IH]; intros b0 d' r H; cbn [pi_go] in H; [discriminate H|].
  destruct ((b0 =? 63) && (b =? 62)) eqn:A.
  { apply andb_prop in A. destruct A as [A1 A2]. apply Z.eqb_eq in A1, A2. injection H as <- <-. subst. auto. }
  apply pre_text_some in H. destruct H as (d2 & H & ->). right.
  assert (G : forall y, ~ infix (str "?>") (b :: y) -> ~ infix (str "?>") (b0 :: b :: y)).
  { intros y N (u & v & E). destruct u as [|w u]; [cbn in E; injection E as -> -> _; discriminate A|].
    injection E as _ E. apply N. exists u, v. exact E. }
  destruct (IH _ _ _ H) as [(-> & -> & ->)|(d & -> & -> & N)].
  - exists []. repeat split. intros (u & v & E). destruct u as [|w u]; [discriminate E|]. injection E as _ E. destruct u; discriminate E.
  - exists (b :: d). repeat split. apply G, N.
Qed.
Lemma pi_iff : forall s d' r, pi_go 0 s = Some (d', r) <->
  exists d, d' = d ++ str "?>" /\ s = d ++ str "?>" ++ r /\ ~ infix (str "?>") d.
Proof.
  intros s d' r. split.
  - intros H. destruct (pi_sound _ _ _ _ H) as [(A & _)|(d & A & B & C)]; [discriminate A|].
    exists d. repeat split; auto. exact (infix_cons _ _ _ C).
  - intros (d & -> & -> & N). apply pi_read. intros (u & v & E). destruct u as [|w u]; [discriminate E|].
    injection E as _ E. apply N. exists u, v. exact E.
Qed.

Lemma after_sound : forall p s r, after p s = Some r ->
  exists a, s = a ++ p ++ r /\ (forall a' b', s = a' ++ p ++ b' -> (length a <= length a')%nat).
Proof.
  induction s as [|b s IH]; intros r H.
  - cbn [after] in H. destruct (has_prefix [] p) eqn:E; [|discriminate H]. destruct p; [|discriminate E].
    injection H as <-. exists []. split; [reflexivity|]. intros; cbn [length]; lia.
  - cbn [after] in H. destruct (has_prefix (b :: s) p) eqn:E.
    + injection H as <-. exists []. split; [exact (prefix_parts _ _ E)|]. intros; cbn [length]; lia.
    + destruct (IH r H) as (a & -> & M). exists (b :: a). split; [reflexivity|].
      intros a' b' Q. destruct a' as [|w a'].
      * exfalso. cbn [app] in Q. assert (F : has_prefix (p ++ b') p = true) by apply has_prefix_app.
        rewrite <- Q in F. congruence.
      * injection Q as _ Q. cbn [length]. specialize (M a' b' Q). lia.
Qed.
Lemma after_none : forall p s, after p s = None -> ~ infix p s.
Proof.
  induction s as [|b s IH]; intros H (u & v & E); cbn [after] in H.
  - destruct (has_prefix [] p) eqn:F; [discriminate H|]. destruct u; [|discriminate E]. cbn [app] in E.
    destruct p; [discriminate F|discriminate E].
  - destruct (has_prefix (b :: s) p) eqn:F; [discriminate H|]. destruct u as [|w u].
    + cbn [app] in E. rewrite E, has_prefix_app in F. discriminate F.
    + injection E as _ E. apply (IH H). exists u, v. exact E.
Qed.

Lemma declares_inst : forall n d v, declares n d v -> proc_inst n d = v.
Proof.
  intros n d v (a & q & b & E & Q & N & M). unfold proc_inst.
  destruct (after (n ++ [61]) d) as [r|] eqn:A.
  - destruct (after_sound _ _ _ A) as (a' & E' & M').
    assert (L1 : (length a <= length a')%nat) by (apply (M a' r); rewrite E', <- !app_assoc; reflexivity).
    assert (L2 : (length a' <= length a)%nat) by (apply (M' a (q :: v ++ q :: b)); rewrite E, <- !app_assoc; reflexivity).
    assert (X : a' = a /\ r = q :: v ++ q :: b).
    { rewrite E, <- app_assoc in E'. clear - E' L1 L2.
      assert (Y : a = a' /\ n ++ 61 :: q :: v ++ q :: b = n ++ [61] ++ r).
      { assert (L : length a = length a') by lia. clear L1 L2. revert a' L E'. induction a as [|x a IH]; intros [|y a'] L E; try discriminate L; [auto|].
        injection E as -> E. injection L as L. destruct (IH a' L E) as [-> F]. auto. }
      destruct Y as [-> Y]. apply app_inv_head in Y. injection Y as Y. auto. }
    destruct X as [_ ->]. replace ((q =? 39) || (q =? 34)) with true by lia.
    rewrite (span_app (fun b => negb (b =? q)) v (q :: b)).
    + reflexivity.
    + apply forallb_forall. intros x Hx. apply negb_true_iff, Z.eqb_neq. intros ->. contradiction.
    + intros x r' E2. injection E2 as <- _. rewrite Z.eqb_refl. reflexivity.
  - exfalso. apply (after_none _ _ A). exists a, (q :: v ++ q :: b). rewrite E, <- !app_assoc. reflexivity.
Qed.
Lemma inst_declares : forall n d, proc_inst n d <> [] -> declares n d (proc_inst n d).
Proof.
  intros n d H. unfold proc_inst in *. destruct (after (n ++ [61]) d) as [[|q v]|] eqn:A; [contradiction| |contradiction].
  destruct ((q =? 39) || (q =? 34)) eqn:Q; [|contradiction].
  destruct (span (fun b => negb (b =? q)) v) as [x y] eqn:S. destruct y as [|w y]; [contradiction|].
  destruct (span_sound _ _ _ _ S) as (-> & F & W). specialize (W w y eq_refl). apply negb_false_iff, Z.eqb_eq in W. subst w.
  destruct (after_sound _ _ _ A) as (a & -> & M). exists a, q, y. split; [rewrite <- !app_assoc; reflexivity|].
  split; [lia|]. split.
  - intros I. rewrite forallb_forall in F. specialize (F q I). rewrite Z.eqb_refl in F. discriminate F.
  - intros a' b' E. apply (M a' b'). rewrite E, <- !app_assoc. reflexivity.
Qed.
Lemma folded_lower : forall a b, (forall y, In y b -> ~ (65 <= y <= 90)) -> folded a b <-> map lower a = b.
Proof.
  intros a b Hb. unfold folded. split.
  - intros F. induction F as [|x y a b Hx _ IH]; [reflexivity|]. cbn [map]. f_equal; [|apply IH; intros; apply Hb; right; assumption].
    unfold lower. assert (~ (65 <= y <= 90)) by (apply Hb; left; reflexivity).
    destruct (in_range 65 90 x) eqn:R; [apply in_range_spec in R; lia|]. destruct Hx as [->|[Hx ->]]; [reflexivity|].
    rewrite in_range_true in R by lia. discriminate R.
  - intros <-. clear Hb. induction a as [|x a IH]; constructor; [|exact IH]. unfold lower.
    destruct (in_range 65 90 x) eqn:R; [right; apply in_range_spec in R; lia|left; reflexivity].
Qed.
Lemma decl_iff : forall d, decl_ok d = true <-> declaration d.
Proof.
  intros d. unfold decl_ok, declaration. cbv zeta. rewrite andb_true_iff, !orb_true_iff, !beq_eq.
  assert (B : forall y, In y (str "utf-8") -> ~ (65 <= y <= 90)) by (intros y; cbn; lia).
  split.
  - intros [H1 H2]. split; intros v D.
    + rewrite (declares_inst _ _ _ D) in H1. exact H1.
    + rewrite (declares_inst _ _ _ D) in H2. destruct H2; [left; assumption|right; apply folded_lower; assumption].
  - intros [H1 H2]. split.
    + destruct (beq_dec (proc_inst (str "version") d) []) as [E|E]; [left; exact E|]. exact (H1 _ (inst_declares _ _ E)).
    + destruct (beq_dec (proc_inst (str "encoding") d) []) as [E|E]; [left; exact E|].
      destruct (H2 _ (inst_declares _ _ E)) as [F|F]; [left; exact F|right; apply folded_lower; assumption].
Qed.
