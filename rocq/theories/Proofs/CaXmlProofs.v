(** ca/xml.go: names, numbers and attributes. *)
From Coq Require Import List ZArith Lia Bool String.
From Verif.Model Require Import Base Str Der NetText Json Rrdp RrdpXml XmlLex CaXml.
From Verif.Spec Require Import JsonSpec XmlSpec XmlTextSpec CaXmlSpec.
From Verif.Proofs Require Import StrProofs NetTextProofs JsonStr JsonSound XmlLexBase XmlLexTok XmlLexTag XmlLexDoc XmlLexThm XmlProofs.
Import ListNotations.
Open Scope Z_scope.

(** ** Names *)
Lemma split_two : forall p l, p <> [] -> l <> [] -> ~ In 58 p -> ~ In 58 l -> split_name (p ++ 58 :: l) = (p, l).
Proof.
  intros p l P L NP NL. unfold split_name.
  rewrite (span_app _ p (58 :: l)) by (first [apply nocolon; exact NP|intros b r E; injection E as <- _; reflexivity]).
  rewrite (proj2 (colons_one p l)) by auto. cbn [tl Nat.eqb andb].
  rewrite (proj2 (beq_neq p [])) by exact P. rewrite (proj2 (beq_neq l [])) by exact L. reflexivity.
Qed.
Lemma split_cases : forall n,
  (exists p l, n = p ++ 58 :: l /\ p <> [] /\ l <> [] /\ ~ In 58 p /\ ~ In 58 l /\ split_name n = (p, l)) \/
  (local_name n n /\ split_name n = ([], n)).
Proof.
  intros n. destruct (split_name n) as [p l] eqn:S. pose proof S as S'. unfold split_name in S'.
  destruct (span (fun b => negb (b =? 58)) n) as [q r] eqn:E.
  destruct ((colons n =? 1)%nat && negb (beq q []) && negb (beq (tl r) [])) eqn:C.
  - left. injection S' as <- <-. destruct (span_sound _ _ _ _ E) as (-> & P & F).
    apply andb_true_iff in C as [C C3]. apply andb_true_iff in C as [C1 C2]. apply Nat.eqb_eq in C1.
    destruct r as [|b r]; [discriminate C3|]. specialize (F b r eq_refl). destruct (Z.eqb_spec b 58) as [->|]; [|discriminate F].
    apply colons_one in C1. destruct C1 as [N1 N2]. cbn [tl] in *. exists q, r. split; [reflexivity|].
    split; [intros ->; discriminate C2|]. split; [intros ->; discriminate C3|]. auto.
  - right. injection S' as <- <-. split; [|reflexivity]. pose proof (local_is n) as L. unfold local in L. rewrite S in L. exact L.
Qed.
Lemma two_inj : forall p p' l l', ~ In 58 p -> ~ In 58 p' -> p ++ 58 :: l = p' ++ 58 :: l' -> p = p' /\ l = l'.
Proof.
  intros p p' l l' N N' E. pose proof (first_colon p p' l l' N N' E) as ->. split; [|reflexivity].
  exact (app_inv_tail _ _ _ E).
Qed.
Lemma no_two : forall n p l, local_name n n -> n = p ++ 58 :: l -> p <> [] -> l <> [] -> ~ In 58 p -> ~ In 58 l -> False.
Proof.
  intros n p l [(q & E & _)|(_ & A)] -> P L N1 N2.
  - apply (f_equal (@List.length _)) in E. rewrite !app_length in E. cbn [List.length] in E. rewrite app_length in E. cbn [List.length] in E. lia.
  - destruct (A p l eq_refl) as [H|[H|[H|H]]]; contradiction.
Qed.

(** ** Declarations *)
Definition decl (p : bytes) : bytes := match p with [] => str "xmlns" | _ => str "xmlns:" ++ p end.
Lemma not_colon : forall x, forallb (fun b => negb (b =? 58)) x = true -> ~ In 58 x.
Proof. intros x. apply nocolon. Qed.
Lemma decl_here : forall p n, ~ In 58 p ->
  (let (q, l) := split_name n in
   (beq q (str "xmlns") && beq l p) || (beq q [] && beq l (str "xmlns") && beq p [])) = beq n (decl p).
Proof.
  intros p n Np. assert (X : ~ In 58 (str "xmlns")) by (apply not_colon; reflexivity).
  assert (Y : str "xmlns:" ++ p = str "xmlns" ++ 58 :: p) by reflexivity.
  destruct (split_cases n) as [(q & l & -> & Q & L & NQ & NL & ->)|(Ln & ->)].
  - rewrite (proj2 (beq_neq q [])) by exact Q. cbn [andb]. rewrite orb_false_r.
    destruct p as [|c p]; cbn [decl].
    + rewrite (proj2 (beq_neq l [])) by exact L. rewrite andb_false_r. symmetry. apply beq_neq. intros E.
      apply X. rewrite <- E. apply in_or_app. right. left. reflexivity.
    + destruct (beq q (str "xmlns") && beq l (c :: p)) eqn:B; symmetry.
      * apply andb_true_iff in B as [B1 B2]. apply beq_eq in B1, B2. subst q l. rewrite Y. apply beq_refl.
      * apply beq_neq. intros E. rewrite Y in E. apply two_inj in E; auto. destruct E as [-> ->]. rewrite !beq_refl in B. discriminate B.
  - cbn [andb]. replace (beq [] (str "xmlns")) with false by reflexivity. cbn [andb orb].
    replace (beq [] []) with true by reflexivity. cbn [andb].
    destruct p as [|c p]; cbn [decl].
    + replace (beq [] []) with true by reflexivity. apply andb_true_r.
    + replace (beq (c :: p) []) with false by reflexivity. rewrite andb_false_r. symmetry. apply beq_neq. intros E. rewrite Y in E.
      exact (no_two n (str "xmlns") (c :: p) Ln E ltac:(discriminate) ltac:(discriminate) X Np).
Qed.
Lemma ns_step : forall p n v r cur, ~ In 58 p -> ns_of p ((n, v) :: r) cur = ns_of p r (if beq n (decl p) then Some v else cur).
Proof.
  intros p n v r cur N. cbn [ns_of]. rewrite <- (decl_here p n N). destruct (split_name n) as [q l].
  destruct (beq q (str "xmlns") && beq l p); [reflexivity|]. cbn [orb]. destruct (beq q [] && beq l (str "xmlns") && beq p []); reflexivity.
Qed.
Lemma ns_absent : forall p a cur, ~ In 58 p -> ~ In (decl p) (map fst a) -> ns_of p a cur = cur.
Proof.
  intros p a. induction a as [|[n v] a IH]; intros cur N I; [reflexivity|]. rewrite ns_step by exact N.
  destruct (beq n (decl p)) eqn:E; [apply beq_eq in E; exfalso; apply I; left; exact E|]. apply IH; [exact N|].
  intros J. apply I. right. exact J.
Qed.
Lemma ns_read : forall p a d v, ~ In 58 p -> attr_is (decl p) a d v ->
  match ns_of p a None with Some w => w | None => d end = v.
Proof.
  intros p a d v N [(x & y & -> & I)|(I & ->)]; [|rewrite ns_absent by assumption; reflexivity].
  enough (G : forall x cur, ns_of p (x ++ (decl p, v) :: y) cur = Some v) by (rewrite G; reflexivity).
  clear x. induction x as [|[n w] x IH]; intros cur; cbn [app]; rewrite ns_step by exact N; [|apply IH].
  rewrite beq_refl. apply ns_absent; assumption.
Qed.
Lemma attr_total : forall name (a : list (bytes * bytes)) d, exists v, attr_is name a d v.
Proof.
  intros name a d. induction a as [|[n v] a (w & [(x & y & -> & I)|(I & ->)])].
  - exists d. right. split; [intros []|reflexivity].
  - exists w. left. exists ((n, v) :: x), y. auto.
  - destruct (beq_dec n name) as [->|N].
    + exists v. left. exists [], a. auto.
    + exists d. right. split; [|reflexivity]. intros [E|J]; [exact (N E)|exact (I J)].
Qed.
Lemma space_read : forall a n v, space_of a n v -> space_name a n = v.
Proof.
  assert (K : forall p l, p <> [] -> l <> [] -> ~ In 58 p -> ~ In 58 l -> split_name (p ++ 58 :: l) = (p, l)) by exact split_two.
  intros a n v [n' w Ln Nx A|p l w P L NP NL X1 X2 A|l L NL|l L NL|]; unfold space_name.
  - destruct (split_cases n') as [(q & l & E & Q & L & NQ & NL & _)|(_ & ->)]; [exfalso; exact (no_two n' q l Ln E Q L NQ NL)|].
    replace (beq [] (str "xmlns")) with false by reflexivity. replace (beq [] (str "xml")) with false by reflexivity.
    rewrite (proj2 (beq_neq n' (str "xmlns"))) by exact Nx. rewrite andb_false_r. apply (ns_read []); [intros []|exact A].
  - rewrite K by assumption. rewrite (proj2 (beq_neq p (str "xmlns"))) by exact X2. rewrite (proj2 (beq_neq p (str "xml"))) by exact X1.
    rewrite (proj2 (beq_neq p [])) by exact P. cbn [andb]. apply ns_read; [exact NP|]. destruct p; [contradiction|exact A].
  - change (str "xml:" ++ l) with (str "xml" ++ 58 :: l). rewrite K; [reflexivity|discriminate|exact L|apply not_colon; reflexivity|exact NL].
  - change (str "xmlns:" ++ l) with (str "xmlns" ++ 58 :: l). rewrite K; [reflexivity|discriminate|exact L|apply not_colon; reflexivity|exact NL].
  - reflexivity.
Qed.
Lemma space_total : forall a n, exists v, space_of a n v.
Proof.
  intros a n. destruct (split_cases n) as [(p & l & -> & P & L & NP & NL & _)|(Ln & _)].
  - destruct (beq_dec p (str "xml")) as [->|X1]; [exists (str "http://www.w3.org/XML/1998/namespace"); apply (so_xml a l L NL)|].
    destruct (beq_dec p (str "xmlns")) as [->|X2]; [exists (str "xmlns"); apply (so_xmlns a l L NL)|].
    destruct (attr_total (str "xmlns:" ++ p) a p) as (v & A). exists v. apply so_prefix; assumption.
  - destruct (beq_dec n (str "xmlns")) as [->|X]; [exists []; apply so_self|].
    destruct (attr_total (str "xmlns") a []) as (v & A). exists v. apply so_default; assumption.
Qed.
Lemma space_is : forall a n, space_of a n (space_name a n).
Proof. intros a n. destruct (space_total a n) as (v & S). rewrite (space_read a n v S). exact S. Qed.

(** ** Attributes *)
Lemma locals_is : forall a, local_attrs a (locals a).
Proof. intros a. unfold local_attrs, locals. induction a as [|u a IH]; cbn [map]; constructor; [split; [apply local_is|reflexivity]|exact IH]. Qed.
Lemma locals_eq : forall a a', local_attrs a a' -> locals a = a'.
Proof.
  induction 1 as [|u v a a' [E1 E2] _ IH]; [reflexivity|]. unfold locals in *. cbn [map]. rewrite IH, (local_eq _ _ E1), E2. destruct v; reflexivity.
Qed.
Lemma attr_found : forall name a d, attr_is name a d (attr name a d).
Proof. intros name a d. destruct (attr_total name a d) as (v & A). rewrite (attr_read name a d v A). exact A. Qed.
Lemma field_read : forall a f v, field a f v -> attr f (locals a) [] = v.
Proof. intros a f v (a' & L & A). rewrite (locals_eq a a' L). exact (attr_read f a' [] v A). Qed.
Lemma field_is : forall a f, field a f (attr f (locals a) []).
Proof. intros a f. exists (locals a). split; [apply locals_is|apply attr_found]. Qed.
Lemma fields_read : forall a fs vs, Forall2 (field a) fs vs -> map (fun f => attr f (locals a) []) fs = vs.
Proof. induction 1 as [|f v fs vs F _ IH]; [reflexivity|]. cbn [map]. rewrite IH, (field_read a f v F). reflexivity. Qed.
Lemma fields_is : forall a fs, Forall2 (field a) fs (map (fun f => attr f (locals a) []) fs).
Proof. intros a fs. induction fs as [|f fs IH]; cbn [map]; constructor; [apply field_is|exact IH]. Qed.

(** ** Numbers *)
Definition sp (b : Z) : Prop := b = 32 \/ 9 <= b <= 13.
Lemma is_space_iff : forall b, is_space b = true <-> sp b.
Proof. intros b. unfold is_space, sp. rewrite orb_true_iff, andb_true_iff, Z.eqb_eq, !Z.leb_le. reflexivity. Qed.
Lemma drop_sound : forall s, exists w, s = w ++ drop_spaces s /\ Forall sp w.
Proof.
  induction s as [|b s (w & E & F)]; [exists []; split; [reflexivity|constructor]|]. cbn [drop_spaces].
  destruct (is_space b) eqn:B; [|exists []; split; [reflexivity|constructor]].
  exists (b :: w). split; [cbn [app]; rewrite <- E; reflexivity|]. constructor; [apply is_space_iff, B|exact F].
Qed.
Lemma drop_app : forall w s, Forall sp w -> (forall b r, s = b :: r -> ~ sp b) -> drop_spaces (w ++ s) = s.
Proof.
  intros w s F N. induction F as [|b w B _ IH]; cbn [app].
  - destruct s as [|b s]; [reflexivity|]. cbn [drop_spaces]. destruct (is_space b) eqn:E; [|reflexivity]. exfalso.
    apply is_space_iff in E. exact (N b s eq_refl E).
  - cbn [drop_spaces]. rewrite (proj2 (is_space_iff b) B). exact IH.
Qed.
Lemma trim_sound : forall s, exists w1 w2, s = w1 ++ trim_space s ++ w2 /\ Forall sp w1 /\ Forall sp w2.
Proof.
  intros s. unfold trim_space. destruct (drop_sound s) as (w & E & F). set (u := drop_spaces s) in *. clearbody u.
  destruct (drop_sound (rev u)) as (w' & E' & F'). set (v := drop_spaces (rev u)) in *. clearbody v.
  exists w, (rev w'). apply (f_equal (@rev Z)) in E'. rewrite rev_involutive, rev_app_distr in E'. rewrite <- E'.
  split; [exact E|]. split; [exact F|]. apply Forall_rev. exact F'.
Qed.
Lemma trim_app : forall w1 d w2, Forall sp w1 -> Forall sp w2 -> Forall (fun b => ~ sp b) d -> d <> [] ->
  trim_space (w1 ++ d ++ w2) = d.
Proof.
  intros w1 d w2 F1 F2 D N. unfold trim_space. rewrite drop_app; [|exact F1|].
  - rewrite rev_app_distr, drop_app; [apply rev_involutive|apply Forall_rev; exact F2|].
    intros b r E. apply Forall_rev in D. rewrite E in D. inversion D; assumption.
  - intros b r E. destruct d as [|c d]; [contradiction|]. injection E as -> _. inversion D; assumption.
Qed.
Lemma digit_number : forall d, d <> [] -> (forallb is_digit d = true <-> number 10 dec_digit d (horner 10 dval d)).
Proof.
  intros d N. split.
  - intros H. split; [exact N|]. exists (map dval d). split.
    + clear N. induction d as [|c d IH]; [constructor|]. cbn [forallb] in H. apply andb_true_iff in H as [H1 H2].
      cbn [map]. constructor; [apply dec_digit_iff, H1|apply IH, H2].
    + unfold horner. generalize 0. clear. induction d as [|c d IH]; intros z; [reflexivity|]. cbn [map fold_left]. apply IH.
  - intros (_ & ds & F & _). clear N. induction F as [|x c ds d [R ->] _ IH]; [reflexivity|]. cbn [forallb]. rewrite IH, andb_true_r.
    unfold is_digit. rewrite andb_true_iff, !Z.leb_le. lia.
Qed.
Lemma number_fun : forall d k, number 10 dec_digit d k -> forallb is_digit d = true /\ horner 10 dval d = k /\ d <> [].
Proof.
  intros d k (N & ds & F & ->). split; [|split; [|exact N]].
  - apply (proj2 (digit_number d N)). split; [exact N|]. exists ds. split; [exact F|].
    unfold horner. generalize 0. clear N. induction F as [|x c ds d [R ->] _ IH]; intros z; [reflexivity|]. cbn [fold_left]. rewrite IH.
    f_equal. unfold dval. lia.
  - unfold horner. generalize 0. clear N. induction F as [|x c ds d [R ->] _ IH]; intros z; [reflexivity|]. cbn [fold_left]. rewrite <- IH.
    f_equal. unfold dval. lia.
Qed.
Definition signed (s : bytes) (n : Z) : Prop :=
  exists sg d k, s = sg ++ d /\ number 10 dec_digit d k /\
    ((sg = [45] /\ n = - k) \/ ((sg = [] \/ sg = [43]) /\ n = k)) /\ - 2 ^ 63 <= n < 2 ^ 63.
Lemma parse_sound : forall s n, parse_int64 s = Some n -> signed s n.
Proof.
  assert (G : forall neg d n, match d with [] => None | _ => if forallb is_digit d then
      let n := (if neg : bool then -1 else 1) * horner 10 dval d in
      if (- 2 ^ 63 <=? n) && (n <? 2 ^ 63) then Some n else None else None end = Some n ->
    exists k, number 10 dec_digit d k /\ n = (if neg then -1 else 1) * k /\ - 2 ^ 63 <= n < 2 ^ 63).
  { intros neg d n H. assert (N : d <> []) by (intros ->; discriminate H).
    assert (H' : (if forallb is_digit d then
      let n := (if neg then -1 else 1) * horner 10 dval d in
      if (- 2 ^ 63 <=? n) && (n <? 2 ^ 63) then Some n else None else None) = Some n) by (destruct d; [contradiction|exact H]).
    clear H. destruct (forallb is_digit d) eqn:F; [|discriminate H']. cbv zeta in H'.
    destruct ((- 2 ^ 63 <=? (if neg then -1 else 1) * horner 10 dval d) && ((if neg then -1 else 1) * horner 10 dval d <? 2 ^ 63)) eqn:B; [|discriminate H'].
    apply (f_equal (fun o => match o with Some z => z | None => 0 end)) in H'. cbv iota beta in H'.
    apply andb_true_iff in B as [B1 B2]. apply Z.leb_le in B1. apply Z.ltb_lt in B2.
    exists (horner 10 dval d). split; [apply digit_number; assumption|]. rewrite <- H'. auto. }
  intros s n H. unfold parse_int64 in H. destruct s as [|c r]; [discriminate H|].
  destruct (Z.eqb_spec c 45) as [->|N1].
  - destruct (G true r n H) as (k & K & E & R). exists [45], r, k. split; [reflexivity|]. split; [exact K|]. split; [left; split; [reflexivity|lia]|exact R].
  - destruct (Z.eqb_spec c 43) as [->|N2].
    + destruct (G false r n H) as (k & K & E & R). exists [43], r, k. split; [reflexivity|]. split; [exact K|]. split; [right; split; [auto|lia]|exact R].
    + destruct (G false (c :: r) n H) as (k & K & E & R). exists [], (c :: r), k. split; [reflexivity|]. split; [exact K|]. split; [right; split; [auto|lia]|exact R].
Qed.
Lemma parse_read : forall s n, signed s n -> parse_int64 s = Some n.
Proof.
  intros s n (sg & d & k & -> & K & S & R). destruct (number_fun d k K) as (F & V & N).
  assert (B : (- 2 ^ 63 <=? n) && (n <? 2 ^ 63) = true) by (rewrite andb_true_iff, Z.leb_le, Z.ltb_lt; exact R).
  assert (G : forall neg : bool, n = (if neg then -1 else 1) * k -> match d with [] => None | _ => if forallb is_digit d then
      let n := (if neg then -1 else 1) * horner 10 dval d in
      if (- 2 ^ 63 <=? n) && (n <? 2 ^ 63) then Some n else None else None end = Some n).
  { intros neg E. rewrite F, V. cbv zeta. rewrite <- E, B. destruct d; [contradiction|reflexivity]. }
  unfold parse_int64. destruct S as [(-> & E)|([->| ->] & E)]; cbn [app].
  - change (45 =? 45) with true. cbv iota. apply (G true). lia.
  - destruct d as [|c d]; [contradiction|]. cbn [forallb] in F. apply andb_true_iff in F as [F1 _].
    unfold is_digit in F1. apply andb_true_iff in F1 as [F1 F2]. apply Z.leb_le in F1. apply Z.leb_le in F2.
    replace (c =? 45) with false by lia. replace (c =? 43) with false by lia. apply (G false). lia.
  - change (43 =? 45) with false. change (43 =? 43) with true. cbv iota. apply (G false). lia.
Qed.
Lemma int_iff : forall x n, int_attr x = Some n <-> integer x n.
Proof.
  intros x n. unfold int_attr. split.
  - intros H. destruct x as [|b x]; [injection H as <-; left; auto|]. right.
    destruct (parse_sound _ _ H) as (sg & d & k & E & K & S & R). destruct (trim_sound (b :: x)) as (w1 & w2 & E' & F1 & F2).
    exists w1, sg, d, w2, k. split; [rewrite E' at 1; rewrite E, <- app_assoc; reflexivity|]. auto.
  - intros [(-> & ->)|(w1 & sg & d & w2 & k & E & K & F1 & F2 & S & R)]; [reflexivity|].
    destruct (number_fun d k K) as (F & V & N).
    assert (T : trim_space x = sg ++ d).
    { rewrite E, (app_assoc sg d w2). apply trim_app; [exact F1|exact F2| |].
      - apply Forall_app. split.
        + destruct S as [(-> & _)|([->| ->] & _)]; repeat constructor; unfold sp; lia.
        + apply Forall_forall. intros c I. rewrite forallb_forall in F. specialize (F c I). unfold is_digit in F.
          apply andb_true_iff in F as [A B]. apply Z.leb_le in A. unfold sp. lia.
      - intros E0. apply app_eq_nil in E0. destruct E0 as [_ E0]. exact (N E0). }
    assert (X : x <> []) by (intros ->; symmetry in E; apply app_eq_nil in E; destruct E as [_ E]; apply app_eq_nil in E; destruct E as [_ E]; apply app_eq_nil in E; destruct E as [E _]; exact (N E)).
    destruct x as [|b x]; [contradiction|]. rewrite T. apply parse_read. exists sg, d, k. auto.
Qed.
Lemma integer_dec : forall v, - 2 ^ 63 <= v < 2 ^ 63 -> integer (dec v) v.
Proof.
  intros v R. apply int_iff. destruct (Z_le_gt_dec 0 v) as [P|P]; [apply int_attr_dec; lia|].
  apply int_iff. right. assert (E : dec v = 45 :: dec (- v)) by (destruct v; [lia|lia|reflexivity]).
  destruct (dec_digits (- v)) as [D NE]; [lia|].
  exists [], [45], (dec (- v)), [], (- v). split; [rewrite E, app_nil_r; reflexivity|].
  split; [rewrite <- (dec_value (- v)) at 2 by lia; apply digit_number; [exact NE|]|].
  { apply forallb_forall. intros c I. rewrite Forall_forall in D. exact (D c I). }
  split; [constructor|]. split; [constructor|]. split; [left; split; [reflexivity|lia]|exact R].
Qed.

Lemma int_all : forall name a cur v, attr_int name a cur = Some v ->
  (forall y, In (name, y) a -> exists n, integer y n) /\
  ((exists x y z, a = x ++ (name, z) :: y /\ ~ In name (map fst y) /\ integer z v) \/ (~ In name (map fst a) /\ v = cur)).
Proof.
  intros name a. induction a as [|[n x] a IH]; intros cur v H; cbn [attr_int] in H.
  - injection H as <-. split; [intros y []|]. right. split; [intros []|reflexivity].
  - destruct (beq n name) eqn:E.
    + apply beq_eq in E. subst n. destruct (int_attr x) as [k|] eqn:I; [|discriminate H]. apply int_iff in I.
      destruct (IH k v H) as (A & B). split; [intros y [J|J]; [injection J as <-; eauto|auto]|]. left.
      destruct B as [(u & y & z & -> & N & Z)|(N & ->)]; [exists ((name, x) :: u), y, z; auto|exists [], a, x; auto].
    + assert (Nn : n <> name) by (intros ->; rewrite beq_refl in E; discriminate E).
      destruct (IH cur v H) as (A & B). split; [intros y [J|J]; [injection J as J _; contradiction|auto]|].
      destruct B as [(u & y & z & -> & N & Z)|(N & ->)]; [left; exists ((n, x) :: u), y, z; auto|right].
      split; [intros [J|J]; [exact (Nn J)|exact (N J)]|reflexivity].
Qed.
Lemma int_fine : forall name a cur, (forall y, In (name, y) a -> exists n, integer y n) -> exists v, attr_int name a cur = Some v.
Proof.
  intros name a. induction a as [|[n x] a IH]; intros cur H; cbn [attr_int]; [eauto|].
  destruct (beq n name) eqn:E.
  - apply beq_eq in E. subst n. destruct (H x (or_introl eq_refl)) as (k & K). apply int_iff in K. rewrite K.
    apply IH. intros y I. apply H. right. exact I.
  - apply IH. intros y I. apply H. right. exact I.
Qed.
Lemma integer_fun : forall x n m, integer x n -> integer x m -> n = m.
Proof. intros x n m A B. apply int_iff in A, B. rewrite A in B. injection B as B. exact B. Qed.
Lemma version_iff : forall a v, attr_int (str "version") (locals a) 0 = Some v <-> version_is a v.
Proof.
  intros a v. split.
  - intros H. apply int_all in H. destruct H as (A & B). exists (locals a).
    destruct B as [(x & y & z & E & N & Z)|(N & ->)].
    + exists z. split; [apply locals_is|]. split; [exact A|]. split; [left; exists x, y; auto|exact Z].
    + exists []. split; [apply locals_is|]. split; [exact A|]. split; [right; auto|left; auto].
  - intros (a' & x & L & A & B & V). rewrite (locals_eq a a' L).
    destruct (int_fine (str "version") a' 0 A) as (w & W). rewrite W. f_equal. apply int_all in W. destruct W as (_ & W).
    destruct W as [(u & y & z & -> & N & Z)|(N & ->)].
    + apply (integer_fun x); [|exact V]. destruct B as [(u' & y' & E & N')|(N' & _)].
      * enough (x = z) as -> by exact Z.
        assert (K : attr (str "version") (u ++ (str "version", z) :: y) [] = z) by (apply attr_read; left; eauto).
        rewrite <- K. symmetry. apply attr_read. left. exists u', y'. auto.
      * exfalso. apply N'. rewrite map_app. apply in_or_app. right. left. reflexivity.
    + destruct B as [(u' & y' & -> & N')|(_ & ->)]; [exfalso; apply N; rewrite map_app; apply in_or_app; right; left; reflexivity|].
      apply (integer_fun []); [left; auto|exact V].
Qed.
