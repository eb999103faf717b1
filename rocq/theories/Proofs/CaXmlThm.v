(** ca/xml.go: what is decoded, and that what is encoded is decoded. *)
From Coq Require Import List ZArith Lia Bool String.
From Verif.Model Require Import Base Str Der NetText Json Rrdp RrdpXml XmlLex CaXml.
From Verif.Spec Require Import JsonSpec XmlSpec XmlTextSpec CaXmlSpec.
From Verif.Proofs Require Import StrProofs JsonStr JsonSound XmlLexBase XmlLexTok XmlLexTag XmlLexDoc XmlLexThm XmlLexRrdp CaXmlProofs.
Import ListNotations.
Open Scope Z_scope.

(** ** Elements among the tokens *)
Lemma to_end_close : forall l d, to_end d l =
  match close d l with Some (_, (_, p, _) :: b) => Some (p, b) | _ => None end.
Proof.
  induction l as [|[[t p] q] l IH]; intros d; [reflexivity|]. cbn [to_end close fst].
  destruct t as [n a| |y|]; try (rewrite IH; destruct (close _ l) as [[u v]|]; reflexivity).
  destruct d as [|d]; [reflexivity|]. rewrite IH. destruct (close d l) as [[u v]|]; reflexivity.
Qed.
Definition no_elem (l : list item) : Prop := forall n a x k, ~ In (Elem n a x k) l.
Lemma skip_spans : forall l pl, spans l pl -> no_elem l -> forall r e, decode_next (pl ++ r) e = decode_next r e.
Proof.
  induction 1 as [|n a x k l s z z' pk pl _ _ _ _|t l p q pl _ IH|l p q pl _ IH]; intros N r e; [reflexivity| | |].
  - exfalso. exact (N n a x k (or_introl eq_refl)).
  - cbn [app decode_next]. apply IH. intros n a x k I. exact (N n a x k (or_intror I)).
  - cbn [app decode_next]. apply IH. intros n a x k I. exact (N n a x k (or_intror I)).
Qed.
Lemma first_part : forall x z : bytes, firstn (List.length (x ++ z) - List.length z) (x ++ z) = x.
Proof.
  intros x z. rewrite app_length. replace (List.length x + List.length z - List.length z)%nat with (List.length x) by lia.
  rewrite firstn_app, firstn_all, Nat.sub_diag. cbn [firstn]. apply app_nil_r.
Qed.
Lemma first_elem : forall n a x s z z' k pk pl e, spans k pk ->
  decode_next ((KStart n a, s, x ++ z) :: pk ++ (KEnd, z, z') :: pl) e = DElem n a x pl.
Proof.
  intros n a x s z z' k pk pl e S. cbn [decode_next]. rewrite to_end_close.
  pose proof (close_end k pk z z' pl S) as E. unfold ptok, bytes in *. rewrite E, first_part. reflexivity.
Qed.
Lemma entry_read : forall n a x c, entry n a x c -> as_content n a x = c.
Proof.
  intros n a x [s l h c t u i] (L & S & H & C & T & U & I). cbn [k_space k_local k_hash k_code k_tag k_uri k_inner] in *. unfold as_content.
  rewrite (space_read _ _ _ S), (local_eq _ _ L), (field_read _ _ _ H), (field_read _ _ _ C), (field_read _ _ _ T), (field_read _ _ _ U), I. reflexivity.
Qed.
Lemma entry_is : forall n a x, entry n a x (as_content n a x).
Proof.
  intros n a x. unfold entry, as_content. cbn [k_space k_local k_hash k_code k_tag k_uri k_inner].
  split; [apply local_is|]. split; [apply space_is|]. repeat (split; [apply field_is|]). reflexivity.
Qed.
Lemma entries_total : forall l, exists cs, entries l cs.
Proof.
  induction l as [|[n a x k|t|] l (cs & IH)].
  - exists []. constructor.
  - exists (as_content n a x :: cs). constructor; [apply entry_is|exact IH].
  - exists cs. constructor. exact IH.
  - exists cs. constructor. exact IH.
Qed.
Lemma all_read : forall l pl, spans l pl -> forall cs fuel, entries l cs -> (List.length pl < fuel)%nat ->
  decode_all fuel pl AtEnd = XOk (cs, true).
Proof.
  induction 1 as [|n a x k l s z z' pk pl Sk _ _ IH|t l p q pl _ IH|l p q pl _ IH]; intros cs fuel E F; (destruct fuel as [|fuel]; [lia|]).
  - inversion E; subst. reflexivity.
  - inversion E as [|? ? ? ? c ? cs' En El| |]; subst. cbn [decode_all]. rewrite (first_elem n a x s z z' k pk pl AtEnd Sk).
    rewrite (IH cs' fuel El) by (cbn [List.length] in F; rewrite app_length in F; cbn [List.length] in F; lia).
    rewrite (entry_read n a x c En). reflexivity.
  - inversion E; subst. apply (IH cs (S fuel)); [assumption|cbn [List.length] in F; lia].
  - inversion E; subst. apply (IH cs (S fuel)); [assumption|cbn [List.length] in F; lia].
Qed.

Section Thm.
Variable first_more second_more : Z -> bool.
Variable refuse_colons : bool.
Notation tag_name := (tag_name first_more second_more refuse_colons).
Notation attributes := (attributes first_more second_more refuse_colons).
Notation stops := (stops first_more second_more).
Notation content := (content first_more second_more refuse_colons).
Notation raw_token := (raw_token first_more second_more refuse_colons).
Notation lex_all := (lex_all first_more second_more refuse_colons).
Notation L := (L first_more second_more refuse_colons).
Notation message := (message first_more second_more refuse_colons).
Notation decode_msg := (decode_msg first_more second_more refuse_colons).
Notation decode_inner := (decode_inner first_more second_more refuse_colons).
Notation decode_full := (decode_full first_more second_more refuse_colons).

Definition next_of (x : list ptok * ending) : dnext := decode_next (fst x) (snd x).
Definition shape (n : bytes) (a : list (bytes * bytes)) (x : bytes) (k : list item) (e : bytes) : Prop :=
  (exists t w1 w2, e = 60 :: n ++ t ++ w1 ++ 62 :: x ++ 60 :: 47 :: n ++ w2 ++ [62] /\ tag_name n /\ attributes a t /\ stops t /\
     blank w1 /\ blank w2 /\ content k x) \/
  (exists t w, e = 60 :: n ++ t ++ w ++ [47; 62] /\ x = [] /\ k = [] /\ tag_name n /\ attributes a t /\ stops t /\ blank w).
Lemma elem_shape : forall n a x k e, content [Elem n a x k] e <-> shape n a x k e.
Proof.
  intros n a x k e. split.
  - intros H. inversion H as [|n0 a0 t w1 x0 k0 w2 l s T A S W1 W2 Ck Cl|n0 a0 t w l s T A S W Cl| | |]; subst; inversion Cl; subst.
    + left. exists t, w1, w2. auto 10.
    + right. exists t, w. auto 10.
  - intros [(t & w1 & w2 & -> & T & A & S & W1 & W2 & C)|(t & w & -> & -> & -> & T & A & S & W)].
    + apply co_elem; auto. constructor.
    + apply co_empty; auto. constructor.
Qed.
Lemma next_read : forall l u e rest n a x k, content l u -> no_elem l -> content [Elem n a x k] e ->
  exists r, next_of (lex_all (u ++ e ++ rest)) = DElem n a x r.
Proof.
  intros l u e rest n a x k Cl Nl Ce. apply elem_shape in Ce.
  assert (Ne : exists v, e = 60 :: v) by (destruct Ce as [(t & w1 & w2 & -> & _)|(t & w & -> & _)]; eauto). destruct Ne as (v & Ev).
  destruct (lex_content _ _ _ l u Cl [] (e ++ rest)) as (pl & Sp & Ep); [right; exists (v ++ rest); rewrite Ev; reflexivity|].
  rewrite lex_all_L, Ep. unfold next_of, after_tok. cbn [fst snd]. rewrite (skip_spans l pl Sp Nl).
  change (exists r, next_of (L [] (e ++ rest)) = DElem n a x r).
  destruct Ce as [(t & w1 & w2 & -> & T & A & S & W1 & W2 & C)|(t & w & -> & -> & -> & T & A & S & W)].
  - set (z := 60 :: 47 :: n ++ w2 ++ 62 :: rest). set (s0 := 60 :: n ++ t ++ w1 ++ 62 :: x ++ z).
    replace ((60 :: n ++ t ++ w1 ++ 62 :: x ++ 60 :: 47 :: n ++ w2 ++ [62]) ++ rest) with s0
      by (unfold s0, z; cbn [app]; rewrite <- !app_assoc; cbn [app]; rewrite <- !app_assoc; cbn [app]; rewrite <- !app_assoc; reflexivity).
    rewrite L_step by discriminate. unfold s0 at 1.
    pose proof (raw_start first_more second_more refuse_colons n a t w1 false (x ++ z) T A S W1) as R. cbv iota in R. rewrite R. clear R. cbv iota.
    destruct (lex_closes first_more second_more refuse_colons k x n w2 rest [] C T W2) as (pk & b & E & Sk). fold z in E.
    unfold next_of, after_tok. cbn [fst snd app decode_next]. rewrite to_end_close, E, first_part. eauto.
  - set (s0 := 60 :: n ++ t ++ w ++ 47 :: 62 :: rest).
    replace ((60 :: n ++ t ++ w ++ [47; 62]) ++ rest) with s0 by (unfold s0; cbn [app]; rewrite <- !app_assoc; reflexivity).
    rewrite L_step by discriminate. unfold s0 at 1.
    pose proof (raw_start first_more second_more refuse_colons n a t w true rest T A S W) as R. cbv iota in R. rewrite R. clear R. cbv iota.
    unfold next_of, after_tok. cbn [fst snd app decode_next to_end]. rewrite Nat.sub_diag. eauto.
Qed.
Lemma next_sound : forall N s n a x r, (List.length s <= N)%nat -> next_of (L [] s) = DElem n a x r ->
  exists l u e rest k, s = u ++ e ++ rest /\ content l u /\ no_elem l /\ content [Elem n a x k] e.
Proof.
  induction N as [|N IH]; intros s n a x r Hn H.
  { destruct s; [|cbn in Hn; lia]. discriminate H. }
  destruct s as [|c s]; [discriminate H|].
  set (s0 := c :: s) in *. assert (Ne : s0 <> []) by discriminate. clearbody s0. rewrite L_step in H by exact Ne.
  destruct (raw_token s0) as [[t q]|] eqn:R; [|discriminate H].
  pose proof (raw_len _ _ _ _ _ _ Ne R) as Le. pose proof (raw_sound _ _ _ _ _ _ Ne R) as F. unfold raw_form in F.
  destruct t as [m at' [|]|m|d|].
  - unfold next_of, after_tok in H. cbn [fst snd app decode_next to_end] in H. rewrite Nat.sub_diag in H. cbn [firstn] in H.
    injection H as <- <- <- _. destruct F as (t & w & -> & T & A & St & W).
    exists [], [], (60 :: m ++ t ++ w ++ [47; 62]), q, []. split; [cbn [app]; rewrite <- !app_assoc; reflexivity|].
    split; [constructor|]. split; [intros ? ? ? ? []|]. apply elem_shape. right. exists t, w. auto 10.
  - unfold next_of, after_tok in H. cbn [fst snd app decode_next] in H. rewrite to_end_close in H.
    destruct (close 0 (fst (L [m] q))) as [[u b]|] eqn:E; [|discriminate H].
    destruct (close_some _ _ _ _ E) as (p & q' & b' & ->). injection H as <- <- Hx _.
    destruct F as (t & w & -> & T & A & St & W).
    pose proof (lex_shut first_more second_more refuse_colons _ [] m [] q u p q' b' (le_n _) E) as (k & y & w2 & C & Eq & _ & W2).
    destruct (lex_closes first_more second_more refuse_colons k y m w2 q' [] C T W2) as (u' & b'' & E' & _).
    rewrite <- Eq in E'. rewrite E in E'. injection E' as _ -> _. rewrite Eq, first_part in Hx. subst y.
    exists [], [], (60 :: m ++ t ++ w ++ 62 :: x ++ 60 :: 47 :: m ++ w2 ++ [62]), q', k.
    split; [rewrite Eq; cbn [app]; rewrite <- !app_assoc; cbn [app]; rewrite <- !app_assoc; cbn [app]; rewrite <- !app_assoc; reflexivity|].
    split; [constructor|]. split; [intros ? ? ? ? []|]. apply elem_shape. left. exists t, w, w2. auto 10.
  - discriminate H.
  - unfold next_of, after_tok in H. cbn [fst snd app decode_next] in H. fold (next_of (L [] q)) in H.
    destruct (IH q n a x r ltac:(lia) H) as (l & u & e & rest & k & -> & C & Nl & Ce).
    assert (Nx : forall i, no_elem [i] -> no_elem (i :: l)).
    { intros i Hi n' a' x' k' [I|I]; [exact (Hi n' a' x' k' (or_introl I))|exact (Nl n' a' x' k' I)]. }
    destruct F as (y & -> & D). exists (Text d :: l), (y ++ u), e, rest, k.
    split; [rewrite <- app_assoc; reflexivity|]. split; [|split; [apply Nx; intros ? ? ? ? [I|[]]; discriminate I|exact Ce]].
    destruct D as [[D Nt]|D]; [|apply co_cdata; assumption]. apply co_text; [exact D| |exact C].
    destruct u as [|b u]; [left; reflexivity|]. right. destruct Nt as [Z|(v & Z)]; [discriminate Z|]. injection Z as -> _. exists u. reflexivity.
  - unfold next_of, after_tok in H. cbn [fst snd app decode_next] in H. fold (next_of (L [] q)) in H.
    destruct (IH q n a x r ltac:(lia) H) as (l & u & e & rest & k & -> & C & Nl & Ce).
    destruct F as (y & -> & D). exists (Other :: l), (y ++ u), e, rest, k.
    split; [rewrite <- app_assoc; reflexivity|]. split; [apply co_other; assumption|]. split; [|exact Ce].
    intros n' a' x' k' [I|I]; [discriminate I|exact (Nl n' a' x' k' I)].
Qed.

Lemma msg_iff : forall ty s m, decode_msg ty s = Some m <-> exists kids, message ty s m kids.
Proof.
  intros ty s m. unfold CaXml.decode_msg. split.
  - destruct (lex_all s) as [l e] eqn:E. intros H.
    destruct (decode_next l e) as [n a x r| |] eqn:D; [|discriminate H|discriminate H].
    destruct (beq (local n) (mt_local ty) && beq (space_name a n) (mt_space ty)) eqn:B; [|discriminate H].
    apply andb_true_iff in B as [B1 B2]. apply beq_eq in B1, B2.
    destruct (attr_int (str "version") (locals a) 0) as [v|] eqn:V; [|discriminate H]. injection H as <-.
    destruct (next_sound _ s n a x r (le_n _)) as (l' & u & e' & rest & k & -> & C & Nl & Ce).
    { rewrite <- lex_all_L, E. exact D. }
    exists k, l', u, e', rest, n, a. split; [reflexivity|]. split; [exact C|]. split; [exact Nl|]. split; [exact Ce|].
    split; [rewrite <- B1; apply local_is|]. split; [rewrite <- B2; apply space_is|]. split; [apply fields_is|apply version_iff, V].
  - intros (kids & l & u & e & rest & n & a & -> & C & Nl & Ce & N & S & F & V).
    destruct (next_read l u e rest n a (g_inner m) kids C Nl Ce) as (r & E). unfold next_of in E.
    destruct (lex_all (u ++ e ++ rest)) as [pl en]. cbn [fst snd] in E. rewrite E.
    rewrite (local_eq _ _ N), (space_read _ _ _ S), !beq_refl. cbn [andb]. rewrite (proj2 (version_iff a (g_version m)) V).
    rewrite (fields_read _ _ _ F). destruct m; reflexivity.
Qed.
Lemma content_nil : forall l s, content l s -> s = [] -> l = [].
Proof.
  intros l s [|n a t w1 x k w2 l' s' _ _ _ _ _ _ _|n a t w l' s' _ _ _ _ _|x d l' s' (N & _) _ _|x d l' s' (y & -> & _) _|x l' s' C _] Z.
  - reflexivity.
  - discriminate Z.
  - discriminate Z.
  - apply app_eq_nil in Z. destruct Z as [Z _]. contradiction.
  - discriminate Z.
  - exfalso. destruct C as [(y & -> & _)|[(t & w & d & -> & _)|(b & y & -> & _)]]; discriminate Z.
Qed.
Lemma inner_read : forall kids x cs, content kids x -> entries kids cs -> decode_inner x = XOk (cs, true).
Proof.
  intros kids x cs C E. unfold CaXml.decode_inner. destruct x as [|b x].
  - rewrite (content_nil kids [] C eq_refl) in E. inversion E; subst. reflexivity.
  - destruct (lex_read _ _ _ kids (b :: x) C) as (pl & Sp & ->). exact (all_read kids pl Sp cs _ E (le_n _)).
Qed.
Lemma message_inner : forall ty s m kids, message ty s m kids -> content kids (g_inner m).
Proof.
  intros ty s m kids (l & u & e & rest & n & a & _ & _ & _ & Ce & _). apply elem_shape in Ce.
  destruct Ce as [(t & w1 & w2 & _ & _ & _ & _ & _ & _ & C)|(t & w & _ & -> & -> & _)]; [exact C|constructor].
Qed.
Theorem full_iff : forall ty s m r, decode_full ty s = Some (m, r) <->
  exists kids cs, message ty s m kids /\ entries kids cs /\ r = XOk (cs, true).
Proof.
  intros ty s m r. unfold CaXml.decode_full. split.
  - destruct (decode_msg ty s) as [m'|] eqn:E; [|discriminate]. intros H. injection H as -> <-.
    apply msg_iff in E. destruct E as (kids & M). destruct (entries_total kids) as (cs & En).
    exists kids, cs. split; [exact M|]. split; [exact En|]. exact (inner_read kids _ cs (message_inner _ _ _ _ M) En).
  - intros (kids & cs & M & En & ->). rewrite (proj2 (msg_iff ty s m)) by eauto.
    rewrite (inner_read kids _ cs (message_inner _ _ _ _ M) En). reflexivity.
Qed.

(** Any octets for the inside: the loop ends. *)
Lemma next_less : forall l e n a x r, decode_next l e = DElem n a x r -> (List.length r < List.length l)%nat.
Proof.
  assert (G : forall l d p r, to_end d l = Some (p, r) -> (List.length r < List.length l)%nat).
  { induction l as [|[[t p'] q] l IH]; intros d p r H; [discriminate H|]. cbn [to_end] in H. cbn [List.length].
    destruct t as [m b| |y|]; try (apply IH in H; lia).
    destruct d as [|d]; [injection H as _ <-; lia|apply IH in H; lia]. }
  induction l as [|[[t p] q] l IH]; intros e n a x r H; [destruct e; discriminate H|]. cbn [decode_next] in H. cbn [List.length].
  destruct t as [m b| |y|]; try (apply IH in H; lia).
  destruct (to_end 0 l) as [[p' r']|] eqn:E; [|discriminate H]. injection H as _ _ _ <-. apply G in E. lia.
Qed.
Lemma all_ends : forall fuel l e, (List.length l < fuel)%nat -> exists cs ok, decode_all fuel l e = XOk (cs, ok).
Proof.
  induction fuel as [|fuel IH]; intros l e F; [lia|]. cbn [decode_all].
  destruct (decode_next l e) as [n a x r| |] eqn:D; [|eauto|eauto]. apply next_less in D.
  destruct (IH r e ltac:(lia)) as (cs & ok & ->). eauto.
Qed.
Theorem inner_ends : forall s, exists cs ok, decode_inner s = XOk (cs, ok).
Proof.
  intros s. unfold CaXml.decode_inner. destruct s as [|b s]; [eauto|]. destruct (lex_all (b :: s)) as [l e]. apply all_ends. lia.
Qed.
(** Without an error only on well-formed content. *)
Lemma all_true : forall fuel l e cs, decode_all fuel l e = XOk (cs, true) -> e = AtEnd.
Proof.
  assert (G : forall l e, decode_next l e = DEof -> e = AtEnd).
  { induction l as [|[[t p] q] l IH]; intros e H; cbn [decode_next] in H; [destruct e; [reflexivity|discriminate H..]|].
    destruct t as [m b| |y|]; try (exact (IH _ H)). destruct (to_end 0 l) as [[p' r']|]; discriminate H. }
  induction fuel as [|fuel IH]; intros l e cs H; cbn [decode_all] in H; [discriminate H|].
  destruct (decode_next l e) as [n a x r| |] eqn:D; [|exact (G _ _ D)|discriminate H].
  destruct (decode_all fuel r e) as [[cs' ok]| |] eqn:A; try discriminate H. injection H as _ ->. exact (IH _ _ _ A).
Qed.
Theorem inner_iff : forall s cs, decode_inner s = XOk (cs, true) <-> exists kids, content kids s /\ entries kids cs.
Proof.
  intros s cs. split; [|intros (kids & C & E); exact (inner_read kids s cs C E)]. intros H.
  assert (X : exists kids, content kids s).
  { destruct s as [|b s]; [exists []; constructor|]. unfold CaXml.decode_inner in H.
    destruct (lex_all (b :: s)) as [l e] eqn:L. apply all_true in H.
    destruct (proj1 (end_iff first_more second_more refuse_colons (b :: s))) as (t & k & C & _); [now rewrite L|]. exists k. exact C. }
  destruct X as (kids & C). destruct (entries_total kids) as (cs' & E). exists kids. split; [exact C|].
  rewrite (inner_read kids s cs' C E) in H. injection H as <-. exact E.
Qed.
End Thm.
