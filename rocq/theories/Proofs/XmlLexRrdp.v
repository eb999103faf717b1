(** The decoder of encoding/xml and the readers of RRDP documents. *)
From Coq Require Import List ZArith Lia Bool String.
From Verif.Model Require Import Base Str Der NetText Json Paths Cache Rrdp RrdpXml XmlLex.
From Verif.Spec Require Import JsonSpec RrdpSpec XmlSpec XmlTextSpec.
From Verif.Proofs Require Import StrProofs JsonStr JsonSound XmlLexBase XmlLexTok XmlLexTag XmlLexDoc XmlLexThm XmlProofs XmlThm.
Import ListNotations.
Open Scope Z_scope.

(** ** Beginnings of documents *)
Lemma chain_step : forall d x l, chain d (x :: l) ->
  exists d', chain d' l /\ forall n a, x = XStart n a -> exists d'', d' = S d''.
Proof.
  assert (G : forall t r x l, stream t ++ r = x :: l -> r = x :: l \/
    (exists n a k t', x = XStart n a /\ l = stream k ++ XEnd :: stream t' ++ r) \/
    ((forall n a, x <> XStart n a) /\ exists t', l = stream t' ++ r)).
  { intros [|[n a k|d|] t] r x l E; [left; exact E| | |]; right.
    - left. rewrite stream_cons in E. cbn [tokens app] in E. injection E as <- <-. exists n, a, k, t.
      split; [reflexivity|]. rewrite <- !app_assoc. reflexivity.
    - right. injection E as <- <-. split; [discriminate|]. exists t. reflexivity.
    - right. injection E as <- <-. split; [discriminate|]. exists t. reflexivity. }
  intros [|d] x l H; cbn [chain] in H.
  - destruct H as (t & E). symmetry in E. rewrite <- (app_nil_r (stream t)) in E. destruct (G t [] x l E) as [F|[(n & a & k & t' & -> & ->)|(N & t' & ->)]].
    + discriminate F.
    + exists 1%nat. split; [exists k, (stream t' ++ []); split; [reflexivity|]; exists t'; apply app_nil_r|]. intros; eauto.
    + exists 0%nat. split; [exists t'; apply app_nil_r|]. intros n a F. exfalso. exact (N n a F).
  - destruct H as (t & c & E & C). symmetry in E. destruct (G t (XEnd :: c) x l E) as [F|[(n & a & k & t' & -> & ->)|(N & t' & ->)]].
    + injection F as <- <-. exists d. split; [exact C|]. intros n a F. discriminate F.
    + exists (S (S d)). split; [|intros; eauto]. exists k, (stream t' ++ XEnd :: c). split; [reflexivity|]. exists t', c. auto.
    + exists (S d). split; [exists t', c; auto|]. intros n a F. exfalso. exact (N n a F).
Qed.
Lemma chain_inside : forall b d n a l, chain d (b ++ XStart n a :: l) -> exists k c, l = stream k ++ XEnd :: c.
Proof.
  induction b as [|x b IH]; intros d n a l H; cbn [app] in H; apply chain_step in H; destruct H as (d' & C & F).
  - destruct (F n a eq_refl) as (d'' & ->). destruct C as (k & c & -> & _). eauto.
  - exact (IH _ _ _ _ C).
Qed.
Lemma first_in : forall names (l : list xtok), free names l \/
  exists b n a r, l = b ++ XStart n a :: r /\ In n names /\ free names b.
Proof.
  intros names. induction l as [|x l IH].
  - left. intros n a [].
  - assert (D : (exists n a, x = XStart n a /\ In n names) \/ forall n a, x = XStart n a -> ~ In n names).
    { destruct x as [n a| | |]; try (right; intros; discriminate).
      destruct (in_dec (list_eq_dec Z.eq_dec) n names) as [I|I]; [left; eauto|right]. intros n' a' E. injection E as <- <-. exact I. }
    destruct D as [(n & a & -> & I)|D].
    + right. exists [], n, a, l. split; [reflexivity|]. split; [exact I|]. intros n' a' [].
    + destruct IH as [F|(b & n & a & r & -> & I & F)].
      * left. intros n a [E|E]; [exact (D n a E)|exact (F n a E)].
      * right. exists (x :: b), n, a, r. split; [reflexivity|]. split; [exact I|]. intros n' a' [E|E]; [exact (D n' a' E)|exact (F n' a' E)].
Qed.
Lemma trichotomy : forall names l t k, l ++ repeat XEnd k = stream t ->
  free names l \/ broken_in names l \/
  exists before n a kids after, l = before ++ tokens (Node n a kids) ++ after /\ In n names /\ free names before.
Proof.
  intros names l t k E. destruct (first_in names l) as [F|(b & n & a & r & -> & I & F)]; [left; exact F|right].
  assert (C : chain 0 (b ++ XStart n a :: r ++ repeat XEnd k)) by (exists t; rewrite <- E, <- app_assoc; reflexivity).
  destruct (chain_inside b 0 n a _ C) as (kids & c & G).
  destruct (le_lt_dec (List.length (stream kids ++ [XEnd])) (List.length r)) as [Le|Lt].
  - right. exists b, n, a, kids, (skipn (List.length (stream kids ++ [XEnd])) r). split; [|auto]. f_equal.
    cbn [tokens app]. f_equal. fold (stream kids). rewrite <- (firstn_skipn (List.length (stream kids ++ [XEnd])) r) at 1. f_equal.
    apply (f_equal (firstn (List.length (stream kids ++ [XEnd])))) in G.
    rewrite firstn_app in G. replace (List.length (stream kids ++ [XEnd]) - List.length r)%nat with 0%nat in G by lia.
    cbn [firstn] in G. rewrite app_nil_r in G. rewrite G.
    replace (stream kids ++ XEnd :: c) with ((stream kids ++ [XEnd]) ++ c) by (rewrite <- app_assoc; reflexivity).
    rewrite firstn_app, Nat.sub_diag, firstn_all. cbn [firstn]. apply app_nil_r.
  - left. exists b, n, a, kids, r, (skipn (List.length r) (stream kids ++ [XEnd])). split; [reflexivity|]. split; [exact I|]. split; [exact F|].
    split.
    + apply (f_equal (firstn (List.length r))) in G. rewrite firstn_app, Nat.sub_diag, firstn_all in G. cbn [firstn] in G. rewrite app_nil_r in G.
      replace (stream kids ++ XEnd :: c) with ((stream kids ++ [XEnd]) ++ c) in G by (rewrite <- app_assoc; reflexivity).
      rewrite firstn_app in G. replace (List.length r - List.length (stream kids ++ [XEnd]))%nat with 0%nat in G by lia.
      cbn [firstn] in G. rewrite app_nil_r in G. set (X := stream kids ++ [XEnd]) in *.
      rewrite <- (firstn_skipn (List.length r) X) at 2. rewrite <- G. reflexivity.
    + intros Z. apply (f_equal (@List.length _)) in Z. rewrite skipn_length in Z. cbn [List.length] in Z. lia.
Qed.

Section Rrdp.
Variable first_more second_more : Z -> bool.
Variable refuse_colons : bool.
Notation tag_name := (tag_name first_more second_more refuse_colons).
Notation attributes := (attributes first_more second_more refuse_colons).
Notation stops := (stops first_more second_more).
Notation content := (content first_more second_more refuse_colons).
Notation xml_text := (xml_text first_more second_more refuse_colons).
Notation raw_token := (raw_token first_more second_more refuse_colons).
Notation lex_all := (lex_all first_more second_more refuse_colons).
Notation xml_tokens := (xml_tokens first_more second_more refuse_colons).
Notation parse_node_octets := (parse_node_octets first_more second_more refuse_colons).
Notation parse_root_octets := (parse_root_octets first_more second_more refuse_colons).
Notation fetch_octets := (fetch_octets first_more second_more refuse_colons).
Notation L := (L first_more second_more refuse_colons).

Theorem any_octets : forall names s,
  free names (xml_tokens s) \/ broken_in names (xml_tokens s) \/
  exists before n a kids after, xml_tokens s = before ++ tokens (Node n a kids) ++ after /\ In n names /\ free names before.
Proof. intros names s. destruct (tokens_begin first_more second_more refuse_colons s) as (t & k & E). exact (trichotomy names _ t k E). Qed.

Theorem octets_update : forall s t p w, xml_text s t -> update_doc (stream t) p w -> parse_node_octets s = XOk (p, w).
Proof. intros s t p w X U. unfold XmlLex.parse_node_octets. rewrite (tokens_read _ _ _ s t X). exact (update_read _ p w U). Qed.
Theorem octets_notification : forall s t n, xml_text s t -> notification_doc (stream t) n -> parse_root_octets s = XOk n.
Proof. intros s t n X U. unfold XmlLex.parse_root_octets. rewrite (tokens_read _ _ _ s t X). exact (notification_read _ n U). Qed.
Theorem octets_end : forall s, parse_node_octets s <> XFuel /\ parse_root_octets s <> XFuel.
Proof. intros s. split; [exact (node_returns _)|exact (root_returns _)]. Qed.

(** ** A document that is cut off inside an element *)
Lemma close_some : forall ps d a b, close d ps = Some (a, b) -> exists p q b', b = (KEnd, p, q) :: b'.
Proof.
  induction ps as [|[[x p] q] ps IH]; intros d a b H; cbn [close fst] in H; [discriminate H|].
  destruct x as [m at'| |y|].
  - destruct (close (S d) ps) as [[u v]|] eqn:E; [|discriminate H]. injection H as _ <-. exact (IH _ _ _ E).
  - destruct d as [|d]; [injection H as _ <-; eauto|].
    destruct (close d ps) as [[u v]|] eqn:E; [|discriminate H]. injection H as _ <-. exact (IH _ _ _ E).
  - destruct (close d ps) as [[u v]|] eqn:E; [|discriminate H]. injection H as _ <-. exact (IH _ _ _ E).
  - destruct (close d ps) as [[u v]|] eqn:E; [|discriminate H]. injection H as _ <-. exact (IH _ _ _ E).
Qed.
Definition outs (ps : list ptok) : list xtok := map (fun p => seen (fst (fst p))) ps.
Lemma close_open : forall ps d, close d ps = None ->
  exists c rest, chain d c /\ rest <> [] /\ outs ps ++ rest = c ++ [XEnd].
Proof.
  induction ps as [|[[x p] q] ps IH]; intros d H; cbn [close fst] in H.
  - exists (repeat XEnd d), (repeat XEnd d ++ [XEnd]). split; [apply chain_ends|]. split; [|reflexivity].
    intros E. apply (f_equal (@List.length _)) in E. rewrite app_length in E. cbn [List.length] in E. lia.
  - destruct x as [m at'| |y|].
    + destruct (close (S d) ps) as [[u v]|] eqn:E; [discriminate H|]. destruct (IH _ E) as (c & rest & C & N & G).
      destruct C as (t & c' & -> & C).
      exists (tokens (Node (local m) (map (fun x => (local (fst x), snd x)) at') t) ++ c'), rest. split; [apply chain_more, C|]. split; [exact N|].
      cbn [outs map fst app tokens seen]. fold (outs ps). rewrite G. rewrite <- !app_assoc. reflexivity.
    + destruct d as [|d]; [discriminate H|]. destruct (close d ps) as [[u v]|] eqn:E; [discriminate H|].
      destruct (IH _ E) as (c & rest & C & N & G). exists (XEnd :: c), rest. split; [exists [], c; auto|]. split; [exact N|].
      cbn [outs map fst app seen]. fold (outs ps). rewrite G. reflexivity.
    + destruct (close d ps) as [[u v]|] eqn:E; [discriminate H|]. destruct (IH _ E) as (c & rest & C & N & G).
      exists (tokens (Txt y) ++ c), rest. split; [apply chain_more, C|]. split; [exact N|].
      cbn [outs map fst app tokens seen]. fold (outs ps). rewrite G. reflexivity.
    + destruct (close d ps) as [[u v]|] eqn:E; [discriminate H|]. destruct (IH _ E) as (c & rest & C & N & G).
      exists (tokens Misc ++ c), rest. split; [apply chain_more, C|]. split; [exact N|].
      cbn [outs map fst app tokens seen]. fold (outs ps). rewrite G. reflexivity.
Qed.
(** The octets up to the closing of [n] below the elements [top]. *)
Fixpoint shut (top : list bytes) (n s q : bytes) : Prop :=
  match top with
  | [] => exists l x w, content l x /\ s = x ++ 60 :: 47 :: n ++ w ++ 62 :: q /\ tag_name n /\ blank w
  | m :: top' => exists l x w r, content l x /\ s = x ++ 60 :: 47 :: m ++ w ++ 62 :: r /\ tag_name m /\ blank w /\ shut top' n r q
  end.
Lemma shut_more : forall i y top n r q, shut top n r q ->
  (forall l s, (next_tag r -> next_tag s) -> content l s -> content (i :: l) (y ++ s)) -> shut top n (y ++ r) q.
Proof.
  assert (G : forall x z, next_tag (x ++ 60 :: z) -> next_tag x).
  { intros x z [E|(v & E)]; [destruct x; discriminate E|]. destruct x as [|b x]; [left; reflexivity|]. injection E as -> _. right. exists x. reflexivity. }
  intros i y [|m top] n r q H F; cbn [shut] in *.
  - destruct H as (l & x & w & C & -> & T & W). exists (i :: l), (y ++ x), w.
    split; [|split; [rewrite <- app_assoc; reflexivity|auto]]. apply F; [apply G|exact C].
  - destruct H as (l & x & w & r' & C & -> & T & W & O). exists (i :: l), (y ++ x), w, r'.
    split; [|split; [rewrite <- app_assoc; reflexivity|auto]]. apply F; [apply G|exact C].
Qed.
Lemma lex_shut : forall N top n stk s a p q b, (List.length s <= N)%nat ->
  close (List.length top) (fst (L (top ++ n :: stk) s)) = Some (a, (KEnd, p, q) :: b) -> shut top n s q.
Proof.
  induction N as [|N IH]; intros top n stk s a p q b Hn H.
  { destruct s; [|cbn in Hn; lia]. discriminate H. }
  destruct s as [|c s]; [discriminate H|].
  set (s0 := c :: s) in *. assert (Ne : s0 <> []) by discriminate. clearbody s0. rewrite L_step in H by exact Ne.
  destruct (raw_token s0) as [[t r]|] eqn:R; [|discriminate H].
  pose proof (raw_len _ _ _ _ _ _ Ne R) as Le. pose proof (raw_sound _ _ _ _ _ _ Ne R) as F. unfold raw_form in F.
  destruct t as [m at' [|]|m|d|].
  - cbn [after_tok fst app close] in H.
    destruct (close (List.length top) (fst (L (top ++ n :: stk) r))) as [[u v]|] eqn:E; [|discriminate H]. injection H as _ ->.
    apply IH in E; [|lia]. destruct F as (t & w & -> & T & A & St & W).
    replace (60 :: m ++ t ++ w ++ 47 :: 62 :: r) with ((60 :: m ++ t ++ w ++ [47; 62]) ++ r) by (cbn [app]; rewrite <- !app_assoc; reflexivity).
    apply (shut_more (Elem m at' [] [])); [exact E|]. intros l s' _ C. cbn [app]. rewrite <- !app_assoc. apply co_empty; assumption.
  - cbn [after_tok fst app close] in H.
    destruct (close (S (List.length top)) (fst (L (m :: top ++ n :: stk) r))) as [[u v]|] eqn:E; [|discriminate H]. injection H as _ ->.
    apply (IH (m :: top)) in E; [|lia]. destruct F as (t & w & -> & T & A & St & W). cbn [shut] in E.
    destruct E as (k & x & w2 & r' & C & -> & T2 & W2 & O).
    replace (60 :: m ++ t ++ w ++ 62 :: x ++ 60 :: 47 :: m ++ w2 ++ 62 :: r')
      with ((60 :: m ++ t ++ w ++ 62 :: x ++ 60 :: 47 :: m ++ w2 ++ [62]) ++ r')
      by (cbn [app]; rewrite <- !app_assoc; cbn [app]; rewrite <- !app_assoc; cbn [app]; rewrite <- !app_assoc; reflexivity).
    apply (shut_more (Elem m at' x k)); [exact O|]. intros l s' _ C'. cbn [app]. rewrite <- !app_assoc. cbn [app]. rewrite <- !app_assoc. cbn [app]. rewrite <- !app_assoc.
    apply co_elem; assumption.
  - destruct F as (w & -> & T & W). destruct top as [|y top]; cbn [app] in H.
    + destruct (beq m n) eqn:E; [|discriminate H]. apply beq_eq in E. subst m. cbn [after_tok fst app close List.length] in H.
      injection H as _ _ -> _. exists [], [], w. split; [constructor|]. auto.
    + destruct (beq m y) eqn:E; [|discriminate H]. apply beq_eq in E. subst y. cbn [after_tok fst app close List.length] in H.
      destruct (close (List.length top) (fst (L (top ++ n :: stk) r))) as [[u v]|] eqn:E; [|discriminate H]. injection H as _ ->.
      apply IH in E; [|lia]. exists [], [], w, r. split; [constructor|]. auto.
  - cbn [after_tok fst app close] in H.
    destruct (close (List.length top) (fst (L (top ++ n :: stk) r))) as [[u v]|] eqn:E; [|discriminate H]. injection H as _ ->.
    apply IH in E; [|lia]. destruct F as (x & -> & [[C Nx]|C]).
    + apply (shut_more (Text d)); [exact E|]. intros l s' Ns C'. apply co_text; [exact C|exact (Ns Nx)|exact C'].
    + apply (shut_more (Text d)); [exact E|]. intros l s' Ns C'. apply co_cdata; auto.
  - cbn [after_tok fst app close] in H.
    destruct (close (List.length top) (fst (L (top ++ n :: stk) r))) as [[u v]|] eqn:E; [|discriminate H]. injection H as _ ->.
    apply IH in E; [|lia]. destruct F as (x & -> & C). apply (shut_more Other); [exact E|]. intros l s' Ns C'. apply co_other; auto.
Qed.
(** A closing tag that matches is where it is. *)
Lemma lex_closes : forall l x n w r stk, content l x -> tag_name n -> blank w -> exists a b,
  close 0 (fst (L (n :: stk) (x ++ 60 :: 47 :: n ++ w ++ 62 :: r))) = Some (a, (KEnd, 60 :: 47 :: n ++ w ++ 62 :: r, r) :: b) /\ spans l a.
Proof.
  intros l x n w r stk C T W. set (z := 60 :: 47 :: n ++ w ++ 62 :: r).
  destruct (lex_content _ _ _ l x C (n :: stk) z) as (pl & Sp & Ep); [right; exists (List.tl z); reflexivity|].
  rewrite Ep. rewrite (L_step _ _ _ (n :: stk) z) by discriminate. unfold z at 1. rewrite raw_end by assumption. rewrite beq_refl.
  exists pl, (fst (L stk r)). split; [|exact Sp]. cbn [after_tok fst app]. exact (close_end l pl z r _ Sp).
Qed.
Lemma cut_inside : forall n k x w2 y v, tag_name n -> blank w2 -> content k x ->
  y ++ v = x ++ 60 :: 47 :: n ++ w2 ++ [62] -> v <> [] ->
  exists kids rest, outs (fst (L [n] y)) ++ rest = stream kids ++ [XEnd] /\ rest <> [].
Proof.
  intros n k x w2 y v T W2 C E V. destruct (close 0 (fst (L [n] y))) as [[a b]|] eqn:H.
  - exfalso. destruct (close_some _ _ _ _ H) as (p & q & b' & ->).
    destruct (lex_shut _ [] n [] y a p q b' (le_n _) H) as (l' & x' & w' & C' & -> & _ & W').
    replace ((x' ++ 60 :: 47 :: n ++ w' ++ 62 :: q) ++ v) with (x' ++ 60 :: 47 :: n ++ w' ++ 62 :: q ++ v) in E
      by (rewrite <- !app_assoc; cbn [app]; rewrite <- !app_assoc; reflexivity).
    destruct (lex_closes l' x' n w' (q ++ v) [] C' T W') as (a1 & b1 & E1 & _).
    destruct (lex_closes k x n w2 [] [] C T W2) as (a2 & b2 & E2 & _).
    rewrite E in E1. rewrite E1 in E2. injection E2 as _ _ E2 _. destruct q; [exact (V E2)|discriminate E2].
  - destruct (close_open _ _ H) as (c & rest & (kids & ->) & N & G). eauto.
Qed.
Theorem cut_broken : forall names l s n a t w k x w2 y v tl n',
  content l s -> shows l tl -> free names (stream tl) ->
  tag_name n -> local_name n n' -> In n' names -> attributes a t -> stops t -> blank w -> blank w2 -> content k x ->
  y ++ v = x ++ 60 :: 47 :: n ++ w2 ++ [62] -> v <> [] ->
  broken_in names (xml_tokens (s ++ 60 :: n ++ t ++ w ++ 62 :: y)).
Proof.
  intros names l s n a t w k x w2 y v tl n' Cl Sh Fr T Ln In' A St W W2 Ck E V.
  set (z := 60 :: n ++ t ++ w ++ 62 :: y).
  destruct (lex_content _ _ _ l s Cl [] z) as (pl & Sp & Ep); [right; exists (List.tl z); reflexivity|].
  destruct (cut_inside n k x w2 y v T W2 Ck E V) as (kids & rest & G & Nr).
  exists (stream tl), n', (map (fun x => (local (fst x), snd x)) a), kids, (outs (fst (L [n] y))), rest.
  split; [|split; [exact In'|split; [exact Fr|split; [exact G|exact Nr]]]].
  change (xml_tokens (s ++ z)) with (out (L [] (s ++ z))). rewrite Ep, out_after.
  rewrite <- (shows_seen l tl Sh), <- (spans_toks l pl Sp). unfold toks. rewrite map_map. f_equal.
  rewrite L_step by discriminate.
  pose proof (raw_start first_more second_more refuse_colons n a t w false y T A St W) as R. cbv iota in R. unfold z at 1. rewrite R. cbv iota.
  rewrite out_after. cbn [map fst seen app]. rewrite (local_eq n n' Ln). reflexivity.
Qed.
Lemma cut_broken_in : forall names s, cut_off first_more second_more refuse_colons names s -> broken_in names (xml_tokens s).
Proof.
  intros names s (l & u & tl & n & n' & a & t & w & k & x & w2 & y & v & -> & H).
  destruct H as (H1 & H2 & H3 & H4 & H5 & H6 & H7 & H8 & H9 & H10 & H11 & H12 & H13).
  exact (cut_broken names l u n a t w k x w2 y v tl n' H1 H2 H3 H4 H5 H6 H7 H8 H9 H10 H11 H12 H13).
Qed.
Theorem cut_refused : forall s,
  (cut_off first_more second_more refuse_colons update_names s -> parse_node_octets s = XErr) /\
  (cut_off first_more second_more refuse_colons [str "notification"] s -> parse_root_octets s = XErr).
Proof. intros s. split; intros H; apply cut_broken_in in H; [exact (broken_read _ H)|exact (root_broken _ H)]. Qed.

(** ** A declared encoding *)
Lemma foreign_encoding : forall d v s, declares (str "encoding") d v -> v <> [] -> ~ folded v (str "utf-8") ->
  ~ infix (str "?>") d -> (forall b r, d = b :: r -> ~ In b [32; 9; 10; 13]) ->
  lex_all (str "<?xml " ++ d ++ str "?>" ++ s) = ([], Broken).
Proof.
  intros d v s D V F N Hd. unfold XmlLex.lex_all. cbn [XmlLex.lex]. set (z := str "<?xml " ++ d ++ str "?>" ++ s) at 2.
  change (str "<?xml " ++ d ++ str "?>" ++ s) with (60 :: (63 :: 120 :: 109 :: 108 :: 32 :: d ++ str "?>" ++ s)) at 2. cbv iota.
  enough (E : raw_token z = None).
  { replace (raw_token z) with (@None (rtok * bytes)) by (symmetry; exact E). reflexivity. }
  unfold z, XmlLex.raw_token.
  change (has_prefix (str "<?xml " ++ d ++ str "?>" ++ s) (str "</")) with false.
  change (has_prefix (str "<?xml " ++ d ++ str "?>" ++ s) (str "<?")) with (has_prefix (120 :: 109 :: 108 :: 32 :: d ++ str "?>" ++ s) []).
  rewrite hp_nil. cbv iota. change (skipn 2 (str "<?xml " ++ d ++ str "?>" ++ s)) with (str "xml" ++ [32] ++ d ++ str "?>" ++ s).
  unfold XmlLex.instruction. rewrite (read_name_ok first_more second_more (str "xml")).
  - rewrite (spaces_app [32]).
    + rewrite (proj2 (pi_iff (d ++ str "?>" ++ s) (d ++ str "?>") s)) by (exists d; auto).
      change (str "?>") with [63; 62]. rewrite firstn_drop2. rewrite beq_refl. cbn [andb].
      destruct (decl_ok d) eqn:O; [|reflexivity]. exfalso. apply decl_iff in O. destruct O as [_ O].
      destruct (O v D) as [G|G]; contradiction.
    + constructor; [cbn; auto|constructor].
    + intros b r E. destruct d as [|y d]; [injection E as <- _; cbn; lia|]. injection E as <- _. exact (Hd y d eq_refl).
  - exists 120, [109; 108]. split; [reflexivity|]. split; [unfold scalar; lia|]. split; [unfold start_char; lia|].
    apply (ch_cons _ 109 [108]); [unfold scalar; lia|left; unfold start_char; lia|].
    apply (ch_cons _ 108 []); [unfold scalar; lia|left; unfold start_char; lia|constructor].
  - intros b r E. injection E as <- _. split; [lia|]. intros G. apply (not_name first_more second_more 32) in G; [exact G|cbn; auto].
  - discriminate.
Qed.
Theorem foreign_encoding_tokens : forall d v s, declares (str "encoding") d v -> v <> [] -> ~ folded v (str "utf-8") ->
  ~ infix (str "?>") d -> (forall b r, d = b :: r -> ~ In b [32; 9; 10; 13]) ->
  xml_tokens (str "<?xml " ++ d ++ str "?>" ++ s) = [].
Proof. intros d v s D V F N Hd. unfold XmlLex.xml_tokens. rewrite (foreign_encoding d v s D V F N Hd). reflexivity. Qed.

(** ** The update on octets *)
Section Fetch.
Context {St : Type}.
Variable cb : event -> St -> St * verdict.
Variable get : bytes -> option bytes.
Notation serves_octets := (serves_text first_more second_more refuse_colons get).
Lemma serves_same : forall docs u, serves_octets docs u -> serves (fun u => option_map xml_tokens (get u)) docs u.
Proof.
  intros docs u H. unfold serves_text, serves in *. destruct (get u) as [s|]; cbn [option_map]; [|exact H].
  destruct H as [(t & p & w & X & U & E)|[H E]]; [left|right; split; [apply cut_broken_in; exact H|exact E]].
  exists p, w. rewrite (tokens_read _ _ _ s t X). auto.
Qed.
Theorem octets_fetch : forall docs path s t n ls last st st' a b,
  get path = Some s -> xml_text s t -> notification_doc (stream t) n -> Z.of_nat (List.length (n_deltas n)) < 2 ^ 62 -> plain_serial last ->
  (forall u, linked n u -> serves_octets docs u) ->
  fetch_octets cb get path ls last st = (st', Done a b) ->
  exists es, plays cb st es st' /\ a = n_session n /\
    ((snapshot_events n docs es /\ b = n_serial n /\ (needs_snapshot n ls last \/ n_serial n = 2 ^ 63 - 1)) \/
     (~ needs_snapshot n ls last /\ update_events n (fun _ => docs) last es /\ b = Z.max last (n_serial n))).
Proof.
  intros docs path s t n ls last st st' a b G X D Len P Sv H. unfold XmlLex.fetch_octets in H.
  refine (xml_update cb _ docs path (stream t) n ls last st st' a b _ D Len P _ H).
  - rewrite G. cbn [option_map]. rewrite (tokens_read _ _ _ s t X). reflexivity.
  - intros u Lu. apply serves_same, Sv, Lu.
Qed.
Theorem octets_cut : forall path s t n r ls last st,
  get path = Some s -> xml_text s t -> notification_doc (stream t) n -> Z.of_nat (List.length (n_deltas n)) < 2 ^ 62 -> plain_serial last ->
  needs_snapshot n ls last -> get (n_snapshot n) = Some r -> cut_off first_more second_more refuse_colons update_names r ->
  fetch_octets cb get path ls last st = (st, Failed).
Proof.
  intros path s t n r ls last st G X D Len P Ns G2 C. unfold XmlLex.fetch_octets.
  refine (xml_broken_snapshot cb _ path (stream t) n (xml_tokens r) ls last st _ D Len P Ns _ (cut_broken_in _ _ C)).
  - rewrite G. cbn [option_map]. rewrite (tokens_read _ _ _ s t X). reflexivity.
  - rewrite G2. reflexivity.
Qed.
Theorem octets_encoding : forall path s t n d v r ls last st,
  get path = Some s -> xml_text s t -> notification_doc (stream t) n -> Z.of_nat (List.length (n_deltas n)) < 2 ^ 62 -> plain_serial last ->
  needs_snapshot n ls last -> get (n_snapshot n) = Some (str "<?xml " ++ d ++ str "?>" ++ r) ->
  declares (str "encoding") d v -> v <> [] -> ~ folded v (str "utf-8") ->
  ~ infix (str "?>") d -> (forall b r, d = b :: r -> ~ In b [32; 9; 10; 13]) ->
  fetch_octets cb get path ls last st = (st, Done (n_session n) (n_serial n)).
Proof.
  intros path s t n d v r ls last st G X D Len P Ns G2 Dv V F N Hd. unfold XmlLex.fetch_octets.
  refine (xml_foreign cb _ path (stream t) n [] ls last st _ D Len P Ns _ _).
  - rewrite G. cbn [option_map]. rewrite (tokens_read _ _ _ s t X). reflexivity.
  - rewrite G2. cbn [option_map]. rewrite (foreign_encoding_tokens d v r Dv V F N Hd). reflexivity.
  - intros m a [].
Qed.
End Fetch.
End Rrdp.
