(** The decoder of encoding/xml: documents and their tokens. *)
From Coq Require Import List ZArith Lia Bool String.
From Verif.Model Require Import Base Str Der NetText Json Rrdp RrdpXml XmlLex.
From Verif.Spec Require Import JsonSpec XmlSpec XmlTextSpec.
From Verif.Proofs Require Import StrProofs JsonStr JsonSound XmlLexBase XmlLexTok XmlLexTag XmlLexDoc.
Import ListNotations.
Open Scope Z_scope.

(** ** Tokens of a sequence of items *)
Fixpoint plain1 (i : item) : list tok :=
  match i with
  | Elem n a _ k => KStart n a :: flat_map plain1 k ++ [KEnd]
  | Text t => [KText t]
  | Other => [KMisc]
  end.
Definition plain (l : list item) : list tok := flat_map plain1 l.
Definition toks (l : list ptok) : list tok := map (fun p => fst (fst p)) l.
(** With positions *)
Inductive spans : list item -> list ptok -> Prop :=
| sp_nil : spans [] []
| sp_elem n a x k l s z z' pk pl : spans k pk -> spans l pl ->
    spans (Elem n a x k :: l) ((KStart n a, s, x ++ z) :: pk ++ (KEnd, z, z') :: pl)
| sp_text t l p q pl : spans l pl -> spans (Text t :: l) ((KText t, p, q) :: pl)
| sp_other l p q pl : spans l pl -> spans (Other :: l) ((KMisc, p, q) :: pl).
Lemma toks_app : forall a b, toks (a ++ b) = toks a ++ toks b.
Proof. intros. apply map_app. Qed.
Lemma spans_toks : forall l pl, spans l pl -> toks pl = plain l.
Proof.
  induction 1 as [|n a x k l s z z' pk pl _ IH1 _ IH2|t l p q pl _ IH|l p q pl _ IH]; [reflexivity| | |].
  - unfold toks. cbn [map fst]. fold (toks (pk ++ (KEnd, z, z') :: pl)). rewrite toks_app, IH1.
    change (toks ((KEnd, z, z') :: pl)) with (KEnd :: toks pl). rewrite IH2.
    unfold plain. cbn [flat_map plain1]. cbn [app]. rewrite <- app_assoc. reflexivity.
  - unfold toks. cbn [map fst]. fold (toks pl). rewrite IH. reflexivity.
  - unfold toks. cbn [map fst]. fold (toks pl). rewrite IH. reflexivity.
Qed.
Lemma spans_app : forall l pl, spans l pl -> forall l' pl', spans l' pl' -> spans (l ++ l') (pl ++ pl').
Proof.
  induction 1; intros l' pl' H'; cbn [app]; [exact H'| | |].
  - rewrite <- app_assoc. cbn [app]. constructor; auto.
  - constructor; auto.
  - constructor; auto.
Qed.

(** ** The first closing that matches nothing *)
Fixpoint close (d : nat) (l : list ptok) : option (list ptok * list ptok) :=
  match l with
  | [] => None
  | p :: r =>
      let more d' := match close d' r with Some (a, b) => Some (p :: a, b) | None => None end in
      match fst (fst p), d with
      | KEnd, O => Some ([], l)
      | KEnd, S d' => more d'
      | KStart _ _, _ => more (S d)
      | _, _ => more d
      end
  end.
Lemma close_spans : forall l pl, spans l pl -> forall d r,
  close d (pl ++ r) = match close d r with Some (a, b) => Some (pl ++ a, b) | None => None end.
Proof.
  induction 1 as [|n a x k l s z z' pk pl _ IH1 _ IH2|t l p q pl _ IH|l p q pl _ IH]; intros d r.
  - cbn [app]. destruct (close d r) as [[u v]|]; reflexivity.
  - cbn [app close fst]. rewrite <- app_assoc, IH1. cbn [app close fst]. rewrite IH2.
    destruct (close d r) as [[u v]|]; [|reflexivity]. rewrite <- app_assoc. reflexivity.
  - cbn [app close fst]. rewrite IH. destruct (close d r) as [[u v]|]; reflexivity.
  - cbn [app close fst]. rewrite IH. destruct (close d r) as [[u v]|]; reflexivity.
Qed.
Lemma close_end : forall l pl p q r, spans l pl -> close 0 (pl ++ (KEnd, p, q) :: r) = Some (pl, (KEnd, p, q) :: r).
Proof. intros l pl p q r H. rewrite (close_spans l pl H). cbn [close fst]. rewrite app_nil_r. reflexivity. Qed.
Lemma close_none : forall l pl, spans l pl -> close 0 pl = None.
Proof. intros l pl H. rewrite <- (app_nil_r pl), (close_spans l pl H). reflexivity. Qed.

(** ** Local names *)
Lemma span_all : forall f s, forallb f s = true -> span f s = (s, []).
Proof.
  intros f s H. rewrite <- (app_nil_r s) at 1. apply span_app; [exact H|]. intros b r E; discriminate E.
Qed.
Lemma nocolon : forall s, forallb (fun b => negb (b =? 58)) s = true <-> ~ In 58 s.
Proof.
  intros s. rewrite forallb_forall. split.
  - intros H I. specialize (H 58 I). discriminate H.
  - intros H x I. destruct (Z.eqb_spec x 58) as [->|]; [contradiction|reflexivity].
Qed.
Lemma colons_app : forall a b, colons (a ++ b) = (colons a + colons b)%nat.
Proof. intros a b. unfold colons. rewrite filter_app, app_length. reflexivity. Qed.
Lemma colons_none : forall s, colons s = 0%nat <-> ~ In 58 s.
Proof.
  intros s. unfold colons. split.
  - intros H I. assert (J : In 58 (filter (Z.eqb 58) s)) by (apply filter_In; auto). destruct (filter (Z.eqb 58) s); [destruct J|discriminate H].
  - intros H. destruct (filter (Z.eqb 58) s) as [|x r] eqn:E; [reflexivity|]. exfalso. apply H.
    assert (J : In x (filter (Z.eqb 58) s)) by (rewrite E; left; reflexivity). apply filter_In in J. destruct J as [J K].
    apply Z.eqb_eq in K. subst x. exact J.
Qed.
Lemma colons_one : forall p r, colons (p ++ 58 :: r) = 1%nat <-> ~ In 58 p /\ ~ In 58 r.
Proof.
  intros p r. rewrite colons_app. change (colons (58 :: r)) with (S (colons r)). rewrite <- !colons_none. lia.
Qed.
Lemma local_is : forall n, local_name n (local n).
Proof.
  intros n. unfold local, split_name. destruct (span (fun b => negb (b =? 58)) n) as [p l] eqn:E.
  destruct (span_sound _ _ _ _ E) as (-> & P & F). apply nocolon in P.
  assert (L : l = [] \/ exists r, l = 58 :: r).
  { destruct l as [|b r]; [left; reflexivity|right]. exists r. specialize (F b r eq_refl).
    destruct (Z.eqb_spec b 58) as [->|]; [reflexivity|discriminate F]. }
  destruct ((colons (p ++ l) =? 1)%nat && negb (beq p []) && negb (beq (tl l) [])) eqn:C; cbn [snd].
  - left. apply andb_true_iff in C as [C C3]. apply andb_true_iff in C as [C1 C2]. apply Nat.eqb_eq in C1.
    destruct L as [->|(r & ->)]; [discriminate C3|]. cbn [tl] in *. apply colons_one in C1. exists p. split; [reflexivity|].
    split; [intros ->; discriminate C2|]. split; [intros ->; discriminate C3|]. exact C1.
  - right. split; [reflexivity|]. intros p' r' E'.
    destruct p' as [|y p']; [left; reflexivity|]. destruct r' as [|z r']; [right; left; reflexivity|]. right; right.
    destruct (in_dec Z.eq_dec 58 (y :: p')) as [I|I]; [left; exact I|]. right.
    destruct (in_dec Z.eq_dec 58 (z :: r')) as [J|J]; [exact J|]. exfalso.
    assert (O : colons (p ++ l) = 1%nat) by (rewrite E'; apply colons_one; auto). rewrite O in C.
    assert (E2 : (p, l) = (y :: p', 58 :: z :: r')).
    { rewrite <- E, E'. rewrite span_app; [reflexivity|apply nocolon; exact I|]. intros b q Q. injection Q as <- _. reflexivity. }
    injection E2 as -> ->. discriminate C.
Qed.
Lemma first_colon : forall p p' r r', ~ In 58 p -> ~ In 58 p' -> p ++ 58 :: r = p' ++ 58 :: r' -> r = r'.
Proof.
  induction p as [|x p IH]; intros [|y p'] r r' N N' E; cbn [app] in E.
  - injection E as E. exact E.
  - injection E as E _. exfalso. apply N'. left. symmetry. exact E.
  - injection E as E _. exfalso. apply N. left. exact E.
  - injection E as _ E. apply (IH p' r r'); [intros I; apply N; right; exact I|intros I; apply N'; right; exact I|exact E].
Qed.
Lemma local_fun : forall n a b, local_name n a -> local_name n b -> a = b.
Proof.
  intros n a b [(p & -> & P & L & N1 & N2)|(-> & A)] [(p' & E & P' & L' & N1' & N2')|(-> & B)].
  - exact (first_colon p p' a b N1 N1' E).
  - exfalso. destruct (B p a eq_refl) as [H|[H|[H|H]]]; contradiction.
  - exfalso. destruct (A p' b E) as [H|[H|[H|H]]]; contradiction.
  - reflexivity.
Qed.
Lemma local_eq : forall n l, local_name n l -> local n = l.
Proof. intros n l H. exact (local_fun n _ _ (local_is n) H). Qed.

(** ** What the readers see of it *)
Lemma stream_cons : forall t l, stream (t :: l) = tokens t ++ stream l.
Proof. reflexivity. Qed.
Lemma shows_seen : forall l t, shows l t -> map seen (plain l) = stream t.
Proof.
  induction 1 as [|n n' a a' x k k' l l' N A _ IH1 _ IH2|t l l' _ IH|l l' _ IH]; [reflexivity| | |].
  - rewrite stream_cons. unfold plain. cbn [flat_map plain1 tokens]. rewrite map_app. fold (plain l). rewrite IH2. f_equal.
    cbn [map]. rewrite map_app. fold (plain k). rewrite IH1. cbn [map seen]. rewrite (local_eq n n' N). f_equal. f_equal.
    clear - A. induction A as [|u v a a' [E1 E2] _ IH]; [reflexivity|]. cbn [map]. rewrite IH, (local_eq _ _ E1), E2. destruct v; reflexivity.
  - rewrite stream_cons. unfold plain. cbn [flat_map plain1 tokens map app]. fold (plain l). rewrite IH. reflexivity.
  - rewrite stream_cons. unfold plain. cbn [flat_map plain1 tokens map app]. fold (plain l). rewrite IH. reflexivity.
Qed.
Lemma shows_total : forall l pl, spans l pl -> exists t, shows l t.
Proof.
  induction 1 as [|n a x k l s z z' pk pl _ (k' & IH1) _ (l' & IH2)|t l p q pl _ (l' & IH)|l p q pl _ (l' & IH)].
  - exists []. constructor.
  - exists (Node (local n) (map (fun u => (local (fst u), snd u)) a) k' :: l'). constructor; auto using local_is.
    clear. induction a as [|u a IH]; cbn [map]; constructor; [split; [apply local_is|reflexivity]|exact IH].
  - exists (Txt t :: l'). constructor. exact IH.
  - exists (Misc :: l'). constructor. exact IH.
Qed.

Section Thm.
Variable first_more second_more : Z -> bool.
Variable refuse_colons : bool.
Notation tag_name := (tag_name first_more second_more refuse_colons).
Notation attributes := (attributes first_more second_more refuse_colons).
Notation stops := (stops first_more second_more).
Notation content := (content first_more second_more refuse_colons).
Notation xml_text := (xml_text first_more second_more refuse_colons).
Notation raw_token := (raw_token first_more second_more refuse_colons).
Notation lex := (lex first_more second_more refuse_colons).
Notation lex_all := (lex_all first_more second_more refuse_colons).
Notation xml_tokens := (xml_tokens first_more second_more refuse_colons).
Notation instruction := (instruction first_more second_more).

(** ** Fuel *)
Definition L (stk : list bytes) (s : bytes) : list ptok * ending := lex (S (List.length s)) stk s.
Lemma lex_fuel_aux : forall n s, (List.length s <= n)%nat -> forall stk k1 k2,
  (List.length s < k1)%nat -> (List.length s < k2)%nat -> lex k1 stk s = lex k2 stk s.
Proof.
  induction n as [|n IH]; intros s Hs stk k1 k2 H1 H2.
  - destruct s; [|cbn in Hs; lia]. destruct k1, k2; cbn in H1, H2; try lia. reflexivity.
  - destruct k1 as [|k1]; [lia|]. destruct k2 as [|k2]; [lia|]. cbn [XmlLex.lex]. destruct s as [|b s]; [reflexivity|].
    destruct (raw_token (b :: s)) as [[t r]|] eqn:R; [|reflexivity].
    assert (D : (List.length r < List.length (b :: s))%nat) by (eapply raw_len; [|exact R]; discriminate).
    cbn [List.length] in *.
    destruct t as [m a [|]|m|d|]; try (rewrite (IH r ltac:(lia) _ k1 k2 ltac:(lia) ltac:(lia)); reflexivity).
    destruct stk as [|y stk]; [reflexivity|]. rewrite (IH r ltac:(lia) stk k1 k2 ltac:(lia) ltac:(lia)). reflexivity.
Qed.
Lemma lex_fuel : forall k stk s, (List.length s < k)%nat -> lex k stk s = L stk s.
Proof. intros k stk s H. apply (lex_fuel_aux (List.length s)); lia. Qed.
Lemma L_nil : forall stk, L stk [] = ([], match stk with [] => AtEnd | _ => Broken end).
Proof. reflexivity. Qed.
Lemma L_step : forall stk s, s <> [] -> L stk s =
  match raw_token s with
  | None => ([], Broken)
  | Some (RStart n a e, r) =>
      if e then after_tok [(KStart n a, s, r); (KEnd, r, r)] (L stk r)
      else after_tok [(KStart n a, s, r)] (L (n :: stk) r)
  | Some (REnd n, r) =>
      match stk with
      | m :: stk' => if beq n m then after_tok [(KEnd, s, r)] (L stk' r) else ([], Broken)
      | [] => ([], Broken)
      end
  | Some (RText t, r) => after_tok [(KText t, s, r)] (L stk r)
  | Some (RMisc, r) => after_tok [(KMisc, s, r)] (L stk r)
  end.
Proof.
  intros stk s N. unfold L at 1. cbn [XmlLex.lex]. destruct s as [|b s]; [contradiction|].
  destruct (raw_token (b :: s)) as [[t r]|] eqn:R; [|reflexivity].
  assert (D : (List.length r < List.length (b :: s))%nat) by (eapply raw_len; [|exact R]; discriminate).
  destruct t as [m a [|]|m|d|]; try (rewrite lex_fuel by exact D; reflexivity).
  destruct stk as [|y stk]; [reflexivity|]. rewrite lex_fuel by exact D. reflexivity.
Qed.
Lemma lex_all_L : forall s, lex_all s = L [] s.
Proof. reflexivity. Qed.
Lemma after_after : forall a b x, after_tok a (after_tok b x) = after_tok (a ++ b) x.
Proof. intros a b [l e]. unfold after_tok. cbn [fst snd]. rewrite app_assoc. reflexivity. Qed.

(** ** Well-formed content is read *)
Definition next_tag (s : bytes) : Prop := s = [] \/ prefix [60] s.
Lemma next_app : forall s t, next_tag s -> next_tag t -> next_tag (s ++ t).
Proof. intros s t [->|(v & ->)] T; [exact T|]. right. exists (v ++ t). rewrite app_assoc. reflexivity. Qed.
Lemma lex_content : forall l s, content l s -> forall stk r, next_tag r ->
  exists pl, spans l pl /\ L stk (s ++ r) = after_tok pl (L stk r).
Proof.
  induction 1 as [|n a t w1 x k w2 l s T A St W1 W2 _ IH1 _ IH2|n a t w l s T A St W _ IH|x d l s C N _ IH|x d l s C _ IH|x l s C _ IH];
    intros stk r Hr.
  - exists []. split; [constructor|]. cbn [app]. destruct (L stk r). reflexivity.
  - destruct (IH2 stk r Hr) as (pl & Sl & El).
    set (z := 60 :: 47 :: n ++ w2 ++ 62 :: s ++ r).
    destruct (IH1 (n :: stk) z) as (pk & Sk & Ek); [right; exists (tl z); reflexivity|].
    set (s0 := 60 :: n ++ t ++ w1 ++ 62 :: x ++ z).
    exists ((KStart n a, s0, x ++ z) :: pk ++ (KEnd, z, s ++ r) :: pl). split; [constructor; assumption|].
    replace ((60 :: n ++ t ++ w1 ++ 62 :: x ++ 60 :: 47 :: n ++ w2 ++ 62 :: s) ++ r) with s0
      by (unfold s0, z; cbn [app]; rewrite <- !app_assoc; cbn [app]; rewrite <- !app_assoc; cbn [app]; rewrite <- !app_assoc; reflexivity).
    rewrite L_step by discriminate. unfold s0 at 1. pose proof (raw_start first_more second_more refuse_colons n a t w1 false (x ++ z) T A St W1) as R. cbv iota in R. rewrite R. clear R. cbv iota.
    rewrite Ek. rewrite (L_step (n :: stk) z) by discriminate. unfold z at 2. rewrite raw_end by assumption. rewrite beq_refl.
    rewrite El, !after_after. f_equal. cbn [app]. rewrite <- app_assoc. reflexivity.
  - destruct (IH stk r Hr) as (pl & Sl & El). set (s0 := 60 :: n ++ t ++ w ++ 47 :: 62 :: s ++ r).
    exists ((KStart n a, s0, s ++ r) :: (KEnd, s ++ r, s ++ r) :: pl).
    split; [exact (sp_elem n a [] [] l s0 (s ++ r) (s ++ r) [] pl sp_nil Sl)|].
    replace ((60 :: n ++ t ++ w ++ 47 :: 62 :: s) ++ r) with s0
      by (unfold s0; cbn [app]; rewrite <- !app_assoc; reflexivity).
    rewrite L_step by discriminate. unfold s0 at 1. pose proof (raw_start first_more second_more refuse_colons n a t w true (s ++ r) T A St W) as R. cbv iota in R. rewrite R. clear R. cbv iota.
    rewrite El, after_after. reflexivity.
  - destruct (IH stk r Hr) as (pl & Sl & El). exists ((KText d, x ++ s ++ r, s ++ r) :: pl). split; [constructor; exact Sl|].
    rewrite <- app_assoc. rewrite L_step by (destruct C as (X & _); destruct x; [contradiction|discriminate]).
    rewrite (raw_text _ _ _ x d) by (try exact C; apply next_app; assumption). rewrite El, after_after. reflexivity.
  - destruct (IH stk r Hr) as (pl & Sl & El). exists ((KText d, x ++ s ++ r, s ++ r) :: pl). split; [constructor; exact Sl|].
    rewrite <- app_assoc. rewrite L_step by (destruct C as (y & -> & _); discriminate).
    rewrite (raw_cdata _ _ _ x d) by exact C. rewrite El, after_after. reflexivity.
  - destruct (IH stk r Hr) as (pl & Sl & El). exists ((KMisc, x ++ s ++ r, s ++ r) :: pl). split; [constructor; exact Sl|].
    rewrite <- app_assoc.
    rewrite L_step by (destruct C as [(y & -> & _)|[(t & w & d & -> & _)|(b & y & -> & _)]]; discriminate).
    rewrite (raw_misc _ _ _ x) by exact C. rewrite El, after_after. reflexivity.
Qed.
Lemma lex_read : forall l s, content l s -> exists pl, spans l pl /\ lex_all s = (pl, AtEnd).
Proof.
  intros l s C. destruct (lex_content l s C [] []) as (pl & S & E); [left; reflexivity|].
  exists pl. split; [exact S|]. rewrite lex_all_L. rewrite app_nil_r in E. rewrite E. unfold after_tok. cbn. rewrite app_nil_r. reflexivity.
Qed.
Lemma tokens_read : forall s t, xml_text s t -> xml_tokens s = stream t.
Proof.
  intros s t (l & C & Sh). destruct (lex_read l s C) as (pl & S & E). unfold XmlLex.xml_tokens. rewrite E. cbn [fst].
  rewrite <- (shows_seen l t Sh), <- (spans_toks l pl S). unfold toks. rewrite map_map. reflexivity.
Qed.
Lemma text_fun : forall s t t', xml_text s t -> xml_text s t' -> stream t = stream t'.
Proof. intros s t t' H H'. rewrite <- (tokens_read s t H). exact (tokens_read s t' H'). Qed.

(** ** Nothing else is read to the end *)
Fixpoint opened (stk : list bytes) (s : bytes) : Prop :=
  match stk with
  | [] => exists l, content l s
  | n :: stk' => exists l x w r, content l x /\ s = x ++ 60 :: 47 :: n ++ w ++ 62 :: r /\ tag_name n /\ blank w /\ opened stk' r
  end.
Lemma opened_more : forall i y stk r, opened stk r -> (forall l s, (next_tag r -> next_tag s) -> content l s -> content (i :: l) (y ++ s)) ->
  opened stk (y ++ r).
Proof.
  intros i y [|n stk] r H F; cbn [opened] in *.
  - destruct H as (l & C). exists (i :: l). apply F; auto.
  - destruct H as (l & x & w & r' & C & -> & T & W & O). exists (i :: l), (y ++ x), w, r'.
    split; [|split; [rewrite <- app_assoc; reflexivity|auto]]. apply F; [|exact C].
    intros [E|(v & E)]; [destruct x; discriminate E|]. destruct x as [|b x]; [left; reflexivity|]. injection E as -> _. right. exists x. reflexivity.
Qed.
Lemma lex_opened : forall n stk s, (List.length s <= n)%nat -> snd (L stk s) = AtEnd -> opened stk s.
Proof.
  induction n as [|n IH]; intros stk s Hn H.
  { destruct s; [|cbn in Hn; lia]. rewrite L_nil in H. destruct stk; [|discriminate H]. exists []. constructor. }
  destruct s as [|b s].
  { rewrite L_nil in H. destruct stk; [|discriminate H]. exists []. constructor. }
  set (s0 := b :: s) in *. assert (N : s0 <> []) by discriminate. clearbody s0. rewrite L_step in H by exact N.
  destruct (raw_token s0) as [[t r]|] eqn:R; [|discriminate H].
  pose proof (raw_len _ _ _ _ _ _ N R) as Le. pose proof (raw_sound _ _ _ _ _ _ N R) as F. unfold raw_form in F.
  destruct t as [m a [|]|m|d|].
  - destruct F as (t & w & -> & T & A & St & W). apply IH in H; [|lia].
    replace (60 :: m ++ t ++ w ++ 47 :: 62 :: r) with ((60 :: m ++ t ++ w ++ [47; 62]) ++ r) by (cbn [app]; rewrite <- !app_assoc; reflexivity).
    apply (opened_more (Elem m a [] [])); [exact H|]. intros l s' _ C. cbn [app]. rewrite <- !app_assoc. apply co_empty; assumption.
  - destruct F as (t & w & -> & T & A & St & W). apply IH in H; [|lia]. cbn [opened] in H.
    destruct H as (k & x & w2 & r' & C & -> & T2 & W2 & O).
    replace (60 :: m ++ t ++ w ++ 62 :: x ++ 60 :: 47 :: m ++ w2 ++ 62 :: r')
      with ((60 :: m ++ t ++ w ++ 62 :: x ++ 60 :: 47 :: m ++ w2 ++ [62]) ++ r')
      by (cbn [app]; rewrite <- !app_assoc; cbn [app]; rewrite <- !app_assoc; cbn [app]; rewrite <- !app_assoc; reflexivity).
    apply (opened_more (Elem m a x k)); [exact O|]. intros l s' _ C'. cbn [app]. rewrite <- !app_assoc. cbn [app]. rewrite <- !app_assoc. cbn [app]. rewrite <- !app_assoc.
    apply co_elem; assumption.
  - destruct F as (w & -> & T & W). destruct stk as [|y stk]; [discriminate H|]. destruct (beq m y) eqn:E; [|discriminate H].
    apply beq_eq in E. subst y. apply IH in H; [|lia]. cbn [opened]. exists [], [], w, r. split; [constructor|]. auto.
  - destruct F as (x & -> & [[C Nx]|C]); apply IH in H; try lia.
    + apply (opened_more (Text d)); [exact H|]. intros l s' Ns C'. apply co_text; [exact C|exact (Ns Nx)|exact C'].
    + apply (opened_more (Text d)); [exact H|]. intros l s' Ns C'. apply co_cdata; auto.
  - destruct F as (x & -> & C). apply IH in H; [|lia]. apply (opened_more Other); [exact H|]. intros l s' Ns C'. apply co_other; auto.
Qed.
Lemma end_iff : forall s, snd (lex_all s) = AtEnd <-> exists t, xml_text s t.
Proof.
  intros s. split.
  - intros H. rewrite lex_all_L in H. destruct (lex_opened _ [] s (le_n _) H) as (l & C).
    destruct (lex_read l s C) as (pl & S & _). destruct (shows_total l pl S) as (t & Sh). exists t, l. auto.
  - intros (t & l & C & _). destruct (lex_read l s C) as (pl & _ & E). rewrite E. reflexivity.
Qed.
Lemma lex_ends_aux : forall n stk s, (List.length s <= n)%nat -> snd (L stk s) <> NoFuel.
Proof.
  induction n as [|n IH]; intros stk s Hn.
  { destruct s; [|cbn in Hn; lia]. rewrite L_nil. destruct stk; discriminate. }
  destruct s as [|b s]; [rewrite L_nil; destruct stk; discriminate|].
  set (s0 := b :: s) in *. assert (N : s0 <> []) by discriminate. clearbody s0. rewrite L_step by exact N.
  destruct (raw_token s0) as [[t r]|] eqn:R; [|discriminate].
  pose proof (raw_len _ _ _ _ _ _ N R) as Le.
  destruct t as [m a [|]|m|d|]; try (unfold after_tok; cbn [snd]; apply IH; lia).
  destruct stk as [|y stk]; [discriminate|]. destruct (beq m y); [|discriminate]. unfold after_tok; cbn [snd]; apply IH; lia.
Qed.
Lemma lex_ends : forall s, snd (lex_all s) <> NoFuel.
Proof. intros s. exact (lex_ends_aux _ [] s (le_n _)). Qed.

(** ** Any octets: the tokens are the beginning of a document *)
Fixpoint chain (d : nat) (l : list xtok) : Prop :=
  match d with
  | O => exists t, l = stream t
  | S d' => exists t c, l = stream t ++ XEnd :: c /\ chain d' c
  end.
Lemma chain_more : forall t d c, chain d c -> chain d (tokens t ++ c).
Proof.
  intros t [|d] c H; cbn [chain] in *.
  - destruct H as (u & ->). exists (t :: u). reflexivity.
  - destruct H as (u & c' & -> & H). exists (t :: u), c'. split; [rewrite stream_cons, <- app_assoc; reflexivity|exact H].
Qed.
Lemma chain_ends : forall d, chain d (repeat XEnd d).
Proof. induction d; cbn [chain repeat]; [exists []; reflexivity|]. exists [], (repeat XEnd d). auto. Qed.
Definition out (x : list ptok * ending) : list xtok := map (fun p => seen (fst (fst p))) (fst x).
Lemma out_after : forall p x, out (after_tok p x) = map (fun p => seen (fst (fst p))) p ++ out x.
Proof. intros p x. unfold out, after_tok. cbn [fst]. apply map_app. Qed.
Lemma lex_chain : forall n stk s, (List.length s <= n)%nat -> exists k, chain (List.length stk) (out (L stk s) ++ repeat XEnd k).
Proof.
  induction n as [|n IH]; intros stk s Hn.
  { destruct s; [|cbn in Hn; lia]. exists (List.length stk). apply chain_ends. }
  destruct s as [|b s]; [exists (List.length stk); apply chain_ends|].
  set (s0 := b :: s) in *. assert (N : s0 <> []) by discriminate. clearbody s0. rewrite L_step by exact N.
  destruct (raw_token s0) as [[t r]|] eqn:R; [|exists (List.length stk); apply chain_ends].
  pose proof (raw_len _ _ _ _ _ _ N R) as Le.
  destruct t as [m a [|]|m|d|].
  - destruct (IH stk r ltac:(lia)) as (k & C). exists k. rewrite out_after, <- app_assoc.
    exact (chain_more (Node (local m) (map (fun x => (local (fst x), snd x)) a) []) _ _ C).
  - destruct (IH (m :: stk) r ltac:(lia)) as (k & C). exists k. rewrite out_after, <- app_assoc. cbn [List.length chain] in C.
    destruct C as (t & c & E & C). rewrite E.
    pose proof (chain_more (Node (local m) (map (fun x => (local (fst x), snd x)) a) t) _ _ C) as G.
    cbn [tokens app] in G. rewrite <- app_assoc in G. exact G.
  - destruct stk as [|y stk]; [exists 0%nat; apply (chain_ends 0)|]. destruct (beq m y); [|exists (S (List.length stk)); apply chain_ends].
    destruct (IH stk r ltac:(lia)) as (k & C). exists k. rewrite out_after. cbn [List.length chain]. exists [], (out (L stk r) ++ repeat XEnd k). auto.
  - destruct (IH stk r ltac:(lia)) as (k & C). exists k. rewrite out_after, <- app_assoc. exact (chain_more (Txt d) _ _ C).
  - destruct (IH stk r ltac:(lia)) as (k & C). exists k. rewrite out_after, <- app_assoc. exact (chain_more Misc _ _ C).
Qed.
Lemma tokens_begin : forall s, exists t k, xml_tokens s ++ repeat XEnd k = stream t.
Proof.
  intros s. destruct (lex_chain _ [] s (le_n _)) as (k & t & E). exists t, k. exact E.
Qed.
End Thm.
