(** ca/xml.go, validator/lib/xml.go: what is encoded is decoded. *)
From Coq Require Import List ZArith Lia Bool String.
From Verif.Model Require Import Base Str Der NetText Json Rrdp RrdpXml XmlLex CaXml.
From Verif.Spec Require Import JsonSpec XmlSpec XmlTextSpec CaXmlSpec.
From Verif.Proofs Require Import StrProofs NetTextProofs JsonStr JsonSound XmlLexBase XmlLexTok XmlLexTag XmlLexDoc XmlLexThm XmlProofs CaXmlProofs CaXmlThm.
Import ListNotations.
Open Scope Z_scope.

(** ** Escaped text *)
Lemma reads_octets : forall stop refs t s d, Forall (fun b => ~ In b (13 :: stop)) t -> reads stop refs s d ->
  reads stop refs (t ++ s) (t ++ d).
Proof. intros stop refs t s d F R. induction F; cbn [app]; [exact R|]. apply re_octet; assumption. Qed.
Lemma utf8_high : forall c, scalar c -> 128 <= c -> Forall (fun b => 128 <= b) (utf8 c).
Proof.
  intros c S H. pose proof (utf8_tail c S) as T.
  destruct (utf8_shape c S H []) as [(b & x & E & R & _)|[(b & x & y & E & R & _)|(b & x & y & z & E & R & _)]]; rewrite E in *; cbn [tl] in T; constructor; auto; lia.
Qed.
Definition stop : list Z := [60; 38; 34].
Lemma number_ref : forall s n t, forallb is_digit s = true -> s <> [] -> horner 10 dval s = n -> character n t -> ref (35 :: s) t.
Proof. intros s n t D N E C. apply (rf_dec s n t); [|exact C]. rewrite <- E. apply digit_number; assumption. Qed.
Lemma hex_ref : forall h n c, hex_digit n h -> scalar n -> utf8 n = [c] -> ref [35; 120; h] [c].
Proof.
  intros h n c H S E. apply (rf_hex [h] n [c]); [|left; auto]. split; [discriminate|]. exists [n]. split; [constructor; [exact H|constructor]|].
  cbn [fold_left]. lia.
Qed.
Lemma escape_reads : forall c s d, scalar c -> allowed c -> reads stop True s d -> reads stop True (escape1 c ++ s) (utf8 c ++ d).
Proof.
  intros c s d S A R. unfold escape1.
  destruct (Z.eqb_spec c 34) as [->|N1].
  { apply (re_ref stop True (35 :: [51; 52]) [34] s d I); [|exact R]. apply (number_ref [51; 52] 34); [reflexivity|discriminate|reflexivity|left; auto]. }
  destruct (Z.eqb_spec c 39) as [->|N2].
  { apply (re_ref stop True (35 :: [51; 57]) [39] s d I); [|exact R]. apply (number_ref [51; 57] 39); [reflexivity|discriminate|reflexivity|left; auto]. }
  destruct (Z.eqb_spec c 38) as [->|N3]; [exact (re_ref stop True (str "amp") [38] s d I rf_amp R)|].
  destruct (Z.eqb_spec c 60) as [->|N4]; [exact (re_ref stop True (str "lt") [60] s d I rf_lt R)|].
  destruct (Z.eqb_spec c 62) as [->|N5]; [exact (re_ref stop True (str "gt") [62] s d I rf_gt R)|].
  destruct (Z.eqb_spec c 9) as [->|N6].
  { apply (re_ref stop True [35; 120; 57] [9] s d I); [|exact R]. apply (hex_ref 57 9 9); [unfold hex_digit; lia|exact S|reflexivity]. }
  destruct (Z.eqb_spec c 10) as [->|N7].
  { apply (re_ref stop True [35; 120; 65] [10] s d I); [|exact R]. apply (hex_ref 65 10 10); [unfold hex_digit; lia|exact S|reflexivity]. }
  destruct (Z.eqb_spec c 13) as [->|N8].
  { apply (re_ref stop True [35; 120; 68] [13] s d I); [|exact R]. apply (hex_ref 68 13 13); [unfold hex_digit; lia|exact S|reflexivity]. }
  replace (xml_char c) with true; [|symmetry; apply xml_char_iff; destruct S; split; [lia|split; [exact A|split; assumption]]].
  rewrite utf8_is_rune. apply reads_octets; [|exact R].
  destruct (Z_lt_le_dec c 128) as [L|L].
  - rewrite utf8_ascii by exact L. constructor; [|constructor]. cbn [stop In]. intros [E|[E|[E|[E|[]]]]]; lia.
  - apply Forall_impl with (2 := utf8_high c S L). intros b B. cbn [stop In]. intros [E|[E|[E|[E|[]]]]]; lia.
Qed.
Lemma escape_all : forall v, chars allowed v -> forall fuel, (List.length v <= fuel)%nat -> reads stop True (escape fuel v) v.
Proof.
  induction 1 as [|c s S A _ IH]; intros fuel F.
  - destruct fuel; constructor.
  - pose proof (utf8_len c) as U. rewrite app_length in F. destruct fuel as [|fuel]; [lia|].
    pose proof (next_utf8 c s S) as Nx. cbn [escape]. destruct (utf8 c ++ s) as [|b r] eqn:E.
    { apply app_eq_nil in E. destruct E as [E _]. rewrite E in U. cbn in U. lia. }
    rewrite Nx, <- E. apply escape_reads; [exact S|exact A|]. apply IH. lia.
Qed.
Lemma quoted_out : forall v, chars allowed v -> quoted (34 :: escaped v ++ [34]) v.
Proof. intros v C. exists 34, (escaped v). split; [auto|]. split; [reflexivity|]. split; [exact (escape_all v C _ (le_n _))|exact C]. Qed.
Lemma plain_chars : forall s, Forall (fun b => 32 <= b < 127) s -> chars allowed s.
Proof.
  induction 1 as [|b s B _ IH]; [constructor|]. change (b :: s) with ([b] ++ s). rewrite <- (utf8_ascii b) by lia.
  constructor; [unfold scalar; lia|unfold allowed; lia|exact IH].
Qed.
Lemma dec_chars : forall v, chars allowed (dec v).
Proof.
  intros v. apply plain_chars. unfold dec. destruct (Z.to_int v) as [u|u].
  - apply Forall_impl with (2 := uint_bytes_digits u). intros b B. lia.
  - constructor; [lia|]. apply Forall_impl with (2 := uint_bytes_digits u). intros b B. lia.
Qed.

(** ** Attributes *)
Definition given (ty : mtype) (m : xmsg) : list (bytes * bytes) :=
  (str "xmlns", mt_space ty) :: (str "version", dec (g_version m)) :: combine (mt_strings ty) (g_values m).
Definition simple (n : bytes) : Prop :=
  n <> [] /\ forallb (fun b => in_range 97 122 b || (b =? 95)) n = true.
Record fine (ty : mtype) : Prop := {
  f_space : chars allowed (mt_space ty);
  f_local : simple (mt_local ty) /\ mt_local ty <> str "xmlns";
  f_names : Forall simple (mt_strings ty);
  f_once : NoDup (str "xmlns" :: str "version" :: mt_strings ty) }.
Ltac ground := match goal with |- ?x = ?y => vm_compute; reflexivity end.
Ltac differ := let F := fresh in intros F; vm_compute in F; repeat (destruct F as [F|F]; [discriminate F|]); exact F.
Lemma types_fine : forall ty, In ty [t_message; t_child_request; t_parent_response; t_publisher_request; t_repository_response] -> fine ty.
Proof.
  assert (P : forall s, forallb (fun b => in_range 32 126 b) s = true -> chars allowed s).
  { intros s H. apply plain_chars. apply Forall_forall. intros b B. rewrite forallb_forall in H. specialize (H b B). unfold in_range in H.
    apply andb_true_iff in H as [H1 H2]. apply Z.leb_le in H1. apply Z.leb_le in H2. lia. }
  intros ty H. cbn [In] in H. destruct H as [<-|[<-|[<-|[<-|[<-|[]]]]]];
    (constructor;
     [apply P; ground
     |split; [split; [discriminate|ground]|discriminate]
     |repeat (apply Forall_cons; [split; [discriminate|ground]|]); apply Forall_nil
     |repeat (apply NoDup_cons; [differ|]); apply NoDup_nil]).
Qed.
Lemma simple_local : forall n, simple n -> local_name n n.
Proof.
  intros n (_ & H). right. split; [reflexivity|]. intros p r ->. exfalso. rewrite forallb_app in H. apply andb_true_iff in H as [_ H].
  cbn [forallb] in H. apply andb_true_iff in H as [H _]. discriminate H.
Qed.
Lemma names_of : forall (fs vs : list bytes), List.length vs = List.length fs -> map fst (combine fs vs) = fs.
Proof. induction fs as [|f fs IH]; intros [|v vs] E; try discriminate E; [reflexivity|]. cbn [combine map fst]. rewrite IH by (cbn in E; lia). reflexivity. Qed.
Lemma simple_attrs : forall a, Forall simple (map fst a) -> local_attrs a a.
Proof. induction a as [|[n v] a IH]; intros F; [constructor|]. inversion F; subst. constructor; [split; [apply simple_local; assumption|reflexivity]|apply IH; assumption]. Qed.
Lemma once_field : forall (fs : list bytes) vs pre, List.length vs = List.length fs -> NoDup (map fst pre ++ fs) ->
  local_attrs (pre ++ combine fs vs) (pre ++ combine fs vs) -> Forall2 (field (pre ++ combine fs vs)) fs vs.
Proof.
  induction fs as [|f fs IH]; intros [|v vs] pre E N La; try discriminate E; constructor.
  - exists (pre ++ combine (f :: fs) (v :: vs)). split; [exact La|]. left. exists pre, (combine fs vs). split; [reflexivity|].
    rewrite names_of by (cbn in E; lia). apply NoDup_remove_2 in N. intros I. apply N. apply in_or_app. right. exact I.
  - cbn [combine] in *. replace (pre ++ (f, v) :: combine fs vs) with ((pre ++ [(f, v)]) ++ combine fs vs) in * by (rewrite <- app_assoc; reflexivity).
    apply IH; [cbn in E; lia| |exact La]. rewrite map_app. cbn [map fst]. rewrite <- app_assoc. exact N.
Qed.

Section Write.
Variable first_more second_more : Z -> bool.
Variable refuse_colons : bool.
Notation tag_name := (tag_name first_more second_more refuse_colons).
Notation attributes := (attributes first_more second_more refuse_colons).
Notation stops := (stops first_more second_more).
Notation content := (content first_more second_more refuse_colons).
Notation message := (message first_more second_more refuse_colons).
Notation decode_full := (decode_full first_more second_more refuse_colons).

Lemma simple_name : forall n, simple n -> tag_name n.
Proof.
  intros n (N & H). split.
  - destruct n as [|c r]; [contradiction|]. assert (G : forall b, in_range 97 122 b || (b =? 95) = true -> 0 <= b < 128 /\ start_char first_more b).
    { intros b B. unfold in_range in B. rewrite orb_true_iff, andb_true_iff, !Z.leb_le, Z.eqb_eq in B. unfold start_char. lia. }
    cbn [forallb] in H. apply andb_true_iff in H as [H1 H2]. destruct (G c H1) as [R S]. exists c, r.
    split; [rewrite utf8_ascii by lia; reflexivity|]. split; [unfold scalar; lia|]. split; [exact S|].
    clear - G H2. induction r as [|b r IH]; [constructor|]. cbn [forallb] in H2. apply andb_true_iff in H2 as [H1 H2]. destruct (G b H1) as [R S].
    change (b :: r) with ([b] ++ r). rewrite <- (utf8_ascii b) by lia. constructor; [unfold scalar; lia|left; exact S|auto].
  - intros _ a b c E. rewrite E in H. rewrite forallb_app in H. apply andb_true_iff in H as [_ H].
    cbn [forallb] in H. apply andb_true_iff in H as [H _]. discriminate H.
Qed.
Lemma out_attributes : forall a, Forall simple (map fst a) -> Forall (chars allowed) (map snd a) ->
  attributes a (flat_map (fun x => out_attr (fst x) (snd x)) a).
Proof.
  induction a as [|[n v] a IH]; intros F G; [constructor|]. inversion F as [|? ? Sn Fa]; subst. inversion G as [|? ? Cv Ga]; subst. cbn [flat_map fst snd] in *.
  replace (out_attr n v ++ flat_map (fun x => out_attr (fst x) (snd x)) a)
    with ([32] ++ n ++ [] ++ 61 :: [] ++ (34 :: escaped v ++ [34]) ++ flat_map (fun x => out_attr (fst x) (snd x)) a)
    by (unfold out_attr; cbn [app]; rewrite <- !app_assoc; cbn [app]; rewrite <- !app_assoc; reflexivity).
  apply at_cons; [apply simple_name, Sn|repeat constructor|constructor|constructor|apply quoted_out, Cv|apply IH; assumption].
Qed.
Theorem written : forall ty m kids rest, writable ty m -> content kids (g_inner m) -> message ty (encode_msg ty m ++ rest) m kids.
Proof.
  intros ty m kids rest (T & Le & Cv & R) C. pose proof (types_fine ty T) as F. destruct F as [F1 (F2 & F2') F3 F4].
  assert (Sn : Forall simple (map fst (given ty m))).
  { unfold given. cbn [map fst]. rewrite names_of by exact Le. constructor; [split; [discriminate|reflexivity]|]. constructor; [split; [discriminate|reflexivity]|exact F3]. }
  assert (Sv : Forall (chars allowed) (map snd (given ty m))).
  { unfold given. cbn [map snd]. constructor; [exact F1|]. constructor; [apply dec_chars|].
    clear - Cv. revert Cv. generalize (g_values m) as vs. induction (mt_strings ty) as [|f fs IH]; intros [|v vs] Cv; try (constructor; fail).
    inversion Cv; subst. cbn [combine map snd]. constructor; auto. }
  pose proof (out_attributes (given ty m) Sn Sv) as A. set (t := flat_map (fun x => out_attr (fst x) (snd x)) (given ty m)) in *.
  assert (E : encode_msg ty m = 60 :: mt_local ty ++ t ++ [] ++ 62 :: g_inner m ++ 60 :: 47 :: mt_local ty ++ [] ++ [62]).
  { unfold encode_msg, t, given. cbn [flat_map fst snd app]. rewrite <- !app_assoc. reflexivity. }
  exists [], [], (encode_msg ty m), rest, (mt_local ty), (given ty m). split; [reflexivity|].
  split; [constructor|]. split; [intros ? ? ? ? []|]. split.
  { rewrite E. apply elem_shape. left. exists t, [], []. split; [reflexivity|]. split; [apply simple_name, F2|]. split; [exact A|].
    split; [|split; [constructor|split; [constructor|exact C]]].
    intros b r Q. unfold t, given in Q. cbn [flat_map out_attr app fst snd] in Q. injection Q as <- _. apply not_name. cbn. auto. }
  split; [apply simple_local, F2|]. split.
  { apply so_default; [apply simple_local, F2|exact F2'|]. left. exists [], ((str "version", dec (g_version m)) :: combine (mt_strings ty) (g_values m)).
    split; [reflexivity|]. cbn [map fst]. rewrite names_of by exact Le. inversion F4; assumption. }
  pose proof (simple_attrs (given ty m) Sn) as La. split.
  { apply (once_field (mt_strings ty) (g_values m) [(str "xmlns", mt_space ty); (str "version", dec (g_version m))] Le); [exact F4|exact La]. }
  exists (given ty m), (dec (g_version m)). split; [exact La|].
  assert (Nv : ~ In (str "version") (map fst (combine (mt_strings ty) (g_values m)))).
  { rewrite names_of by exact Le. inversion F4 as [|? ? _ F5]; subst. inversion F5; assumption. }
  split; [|split; [|apply integer_dec, R]].
  - intros y [I|[I|I]].
    + apply (f_equal fst) in I. discriminate I.
    + apply (f_equal snd) in I. cbn [snd] in I. subst y. exists (g_version m). apply integer_dec, R.
    + exfalso. apply Nv. apply (in_map fst) in I. exact I.
  - left. exists [(str "xmlns", mt_space ty)], (combine (mt_strings ty) (g_values m)). split; [reflexivity|exact Nv].
Qed.
Theorem write_read : forall ty m kids cs, writable ty m -> content kids (g_inner m) -> entries kids cs ->
  decode_full ty (encode_msg ty m) = Some (m, XOk (cs, true)).
Proof.
  intros ty m kids cs W C E. apply full_iff. exists kids, cs. rewrite <- (app_nil_r (encode_msg ty m)). split; [exact (written ty m kids [] W C)|auto].
Qed.
(** Octets of the inside that close the element. *)
Theorem write_closed : forall ty m kids cs y, writable ty m -> content kids (g_inner m) -> entries kids cs ->
  decode_full ty (encode_msg ty (mkMsg (g_version m) (g_values m) (g_inner m ++ 60 :: 47 :: mt_local ty ++ 62 :: y))) =
  Some (m, XOk (cs, true)).
Proof.
  intros ty m kids cs y W C E. apply full_iff. exists kids, cs. split; [|auto].
  replace (encode_msg ty (mkMsg (g_version m) (g_values m) (g_inner m ++ 60 :: 47 :: mt_local ty ++ 62 :: y)))
    with (encode_msg ty m ++ (y ++ 60 :: 47 :: mt_local ty ++ [62])).
  { exact (written ty m kids _ W C). }
  unfold encode_msg. cbn [g_version g_values g_inner app]. rewrite <- !app_assoc. cbn [app]. rewrite <- !app_assoc. cbn [app]. rewrite <- !app_assoc. reflexivity.
Qed.
End Write.

(** ** Declarations around an element do not reach it *)
Lemma entries_in : forall l cs n a x k, entries l cs -> In (Elem n a x k) l -> exists c, In c cs /\ entry n a x c.
Proof.
  induction 1 as [|n' a' x' k' c l cs En _ IH|t l cs _ IH|l cs _ IH]; intros I; [destruct I| | |].
  - destruct I as [I|I]; [injection I as -> -> -> _; exists c; split; [left; reflexivity|exact En]|].
    destruct (IH I) as (c' & J & E). exists c'. split; [right; exact J|exact E].
  - destruct I as [I|I]; [discriminate I|exact (IH I)].
  - destruct I as [I|I]; [discriminate I|exact (IH I)].
Qed.
Lemma space_lost : forall l cs p n a x k, entries l cs -> In (Elem (p ++ n) a x k) l ->
  ((p = [] /\ local_name n n /\ ~ In (str "xmlns") (map fst a)) \/
   (exists q, p = q ++ [58] /\ q <> [] /\ n <> [] /\ ~ In 58 q /\ ~ In 58 n /\ q <> str "xml" /\ ~ In (str "xmlns:" ++ q) (map fst a))) ->
  exists c, In c cs /\ k_inner c = x /\ k_local c = n /\ k_space c = removelast p.
Proof.
  intros l cs p n a x k E I H. destruct (entries_in l cs _ a x k E I) as (c & J & En). exists c. split; [exact J|].
  destruct En as (L & S & _ & _ & _ & _ & X). split; [exact X|].
  destruct H as [(-> & N & A)|(q & -> & Q & Nn & N1 & N2 & Nx & A)]; cbn [app] in *.
  - split; [exact (local_fun n _ _ L N)|]. rewrite <- (space_read a n _ S). cbn [removelast].
    destruct (beq_dec n (str "xmlns")) as [->|Nx]; [reflexivity|]. apply space_read. apply so_default; [exact N|exact Nx|]. right. auto.
  - rewrite <- app_assoc in *. cbn [app] in *. split; [apply (local_fun _ _ _ L); left; exists q; auto|].
    rewrite removelast_last. rewrite <- (space_read a _ _ S).
    destruct (beq_dec q (str "xmlns")) as [->|Ny]; [apply space_read; apply (so_xmlns a n Nn N2)|].
    apply space_read. apply so_prefix; auto. right. auto.
Qed.
