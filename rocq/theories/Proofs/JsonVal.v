(** Values of JSON texts. *)
From Coq Require Import List ZArith Lia Bool String.
From Verif.Model Require Import Base Str Der Json.
From Verif.Spec Require Import JsonSpec.
From Verif.Proofs Require Import JsonStr JsonProofs.
Import ListNotations.
Open Scope Z_scope.

Scheme jtext_mind := Induction for jtext Sort Prop
  with jelems_mind := Induction for jelems Sort Prop
  with jmembers_mind := Induction for jmembers Sort Prop.
Combined Scheme json_mind from jtext_mind, jelems_mind, jmembers_mind.

(** ** What a value can begin with *)
Lemma number_head : forall t, jnumber t -> exists c r, t = c :: r /\ (c = 45 \/ 48 <= c <= 57).
Proof.
  intros t (m & i & f & e & -> & M & I0 & _).
  assert (HI : exists c i', i = c :: i' /\ 48 <= c <= 57).
  { destruct I0 as [->|((A & B) & _)]; [exists 48, []; split; [reflexivity|lia]|].
    destruct i as [|c i']; [contradiction|]. inversion B; subst. exists c, i'. split; [reflexivity|assumption]. }
  destruct HI as (c & i' & -> & C). destruct M as [->| ->]; cbn [app]; eexists; eexists; (split; [reflexivity|]); [right; exact C|left; reflexivity].
Qed.
Lemma value_head : forall n v s, jtext n v s -> exists c r, s = c :: r /\ ~ In c [32; 9; 10; 13] /\ c <> 93 /\ c <> 125.
Proof.
  intros n v s J. destruct J as [n|n|n|n t H|n v s (t & _ & ->)|n w _|n l s _ _|n w _|n l s _ _];
    try (eexists; eexists; split; [reflexivity|cbn [In]; lia]);
    [exists 110, (str "ull")|exists 116, (str "rue")|exists 102, (str "alse")|]; try (split; [reflexivity|cbn [In]; lia]).
  destruct (number_head t H) as (c & r & -> & C). exists c, r. split; [reflexivity|]. cbn [In]. lia.
Qed.
Lemma stop_ws : forall w c r, ws w -> ~ (48 <= c <= 57) -> c <> 46 -> c <> 101 -> c <> 69 -> stop (w ++ c :: r).
Proof.
  intros w c r W A B C D. destruct W as [|x w X W]; cbn [app stop]; [tauto|]. cbn [In] in X. lia.
Qed.

(** ** Reading what the grammar allows *)
Lemma p_val_ws : forall f d w s, ws w -> p_val f d (w ++ s) = p_val f d s.
Proof. intros [|f] d w s W; [reflexivity|]. cbn [p_val]. rewrite skip_ws_pre by exact W. reflexivity. Qed.
Lemma max_depth_pos : forall d (n : nat), d + Z.of_nat (S n) <= 10000 -> (max_depth <=? d) = false.
Proof. intros d n H. apply Z.leb_gt. unfold max_depth. lia. Qed.

Lemma ws_no_quote : ~ In 34 [32; 9; 10; 13]. Proof. cbn [In]; lia. Qed.
Lemma ws_no_colon : ~ In 58 [32; 9; 10; 13]. Proof. cbn [In]; lia. Qed.
Lemma ws_no_comma : ~ In 44 [32; 9; 10; 13]. Proof. cbn [In]; lia. Qed.
Lemma ws_no_brace : ~ In 125 [32; 9; 10; 13]. Proof. cbn [In]; lia. Qed.
Lemma ws_no_bracket : ~ In 93 [32; 9; 10; 13]. Proof. cbn [In]; lia. Qed.

Definition reads_val (n : nat) (v : json) (s : bytes) : Prop :=
  forall f d r, (2 * length s + 1 <= f)%nat -> 0 <= d -> d + Z.of_nat n <= 10000 -> stop r -> p_val f d (s ++ r) = JOk v r.
Definition reads_elems (n : nat) (l : list json) (s : bytes) : Prop :=
  forall f d r, (2 * length s + 2 <= f)%nat -> 0 <= d -> d + Z.of_nat n <= 10000 -> p_elems f d (s ++ 93 :: r) = JOk l r.
Definition reads_members (n : nat) (l : list (bytes * json)) (s : bytes) : Prop :=
  forall f d r, (2 * length s + 1 <= f)%nat -> 0 <= d -> d + Z.of_nat n <= 10000 -> p_members f d (s ++ 125 :: r) = JOk l r.

Lemma p_members_step : forall f d w1 k sk w2 q, ws w1 -> ws w2 -> jstring k sk ->
  p_members (S f) d (w1 ++ sk ++ w2 ++ 58 :: q) =
    match p_val f d q with
    | JOk v r3 =>
        match skip_ws r3 with
        | [] => JErr
        | y :: r4 =>
            if y =? 44 then
              match p_members f d r4 with
              | JOk l r5 => JOk ((k, v) :: l) r5
              | JErr => JErr
              | JFuel => JFuel
              end
            else if y =? 125 then JOk [(k, v)] r4
            else JErr
        end
    | JErr => JErr
    | JFuel => JFuel
    end.
Proof.
  intros f d w1 k sk w2 q W1 W2 (t & T & ->). cbn [p_members]. rewrite skip_ws_pre by exact W1.
  rewrite <- app_comm_cons, skip_ws_stop by exact ws_no_quote. change (34 =? 34) with true. cbv iota.
  rewrite <- app_assoc. cbn [app]. rewrite (p_chars_grammar _ _ T). rewrite skip_ws_pre by exact W2.
  rewrite skip_ws_stop by exact ws_no_colon. change (58 =? 58) with true. cbv iota. reflexivity.
Qed.

Lemma p_val_obj : forall f d r x r1, 0 <= d -> (max_depth <=? d) = false -> skip_ws r = x :: r1 -> x <> 125 ->
  p_val (S f) d (123 :: r) = match p_members f (d + 1) r with JOk l r2 => JOk (JObj l) r2 | JErr => JErr | JFuel => JFuel end.
Proof.
  intros f d r x r1 _ M E N. cbn [p_val]. rewrite skip_ws_stop by (cbn [In]; lia). change (123 =? 123) with true. cbv iota.
  rewrite M, E, (proj2 (Z.eqb_neq x 125) N). reflexivity.
Qed.
Lemma p_val_arr : forall f d r x r1, 0 <= d -> (max_depth <=? d) = false -> skip_ws r = x :: r1 -> x <> 93 ->
  p_val (S f) d (91 :: r) = match p_elems f (d + 1) r with JOk l r2 => JOk (JArr l) r2 | JErr => JErr | JFuel => JFuel end.
Proof.
  intros f d r x r1 _ M E N. cbn [p_val]. rewrite skip_ws_stop by (cbn [In]; lia). change (91 =? 123) with false.
  change (91 =? 91) with true. cbv iota. rewrite M, E, (proj2 (Z.eqb_neq x 93) N). reflexivity.
Qed.
Lemma p_val_num : forall f d c r, c = 45 \/ 48 <= c <= 57 ->
  p_val (S f) d (c :: r) = match p_num (c :: r) with Some (t, r1) => JOk (JNum t) r1 | None => JErr end.
Proof.
  intros f d c r C. cbn [p_val]. rewrite skip_ws_stop by (cbn [In]; lia).
  rewrite (proj2 (Z.eqb_neq c 123)), (proj2 (Z.eqb_neq c 91)), (proj2 (Z.eqb_neq c 34)) by lia.
  assert (H : forall x p, c <> x -> has_prefix (c :: r) (x :: p) = false).
  { intros x p N. cbn [has_prefix]. rewrite (proj2 (Z.eqb_neq c x) N). reflexivity. }
  change (str "null") with (110 :: str "ull"). change (str "true") with (116 :: str "rue"). change (str "false") with (102 :: str "alse").
  rewrite !H by lia. reflexivity.
Qed.

Lemma reads : (forall n v s, jtext n v s -> reads_val n v s) /\
  (forall n l s, jelems n l s -> reads_elems n l s) /\ (forall n l s, jmembers n l s -> reads_members n l s).
Proof.
  apply json_mind; unfold reads_val, reads_elems, reads_members.
  - intros n f d r F _ _ _. destruct f as [|f]; [cbn in F; lia|]. destruct r; reflexivity.
  - intros n f d r F _ _ _. destruct f as [|f]; [cbn in F; lia|]. destruct r; reflexivity.
  - intros n f d r F _ _ _. destruct f as [|f]; [cbn in F; lia|]. destruct r; reflexivity.
  - intros n t H f d r F _ _ ST. destruct f as [|f]; [lia|]. pose proof (p_num_grammar t r H ST) as P.
    destruct (number_head t H) as (c & q & -> & C). cbn [app] in *. rewrite p_val_num by exact C. rewrite P. reflexivity.
  - intros n v s (t & T & ->) f d r F _ _ _. destruct f as [|f]; [lia|]. cbn [app p_val]. rewrite skip_ws_stop by exact ws_no_quote.
    change (34 =? 123) with false. change (34 =? 91) with false. change (34 =? 34) with true. cbv iota.
    rewrite <- app_assoc. cbn [app]. rewrite (p_chars_grammar _ _ T). reflexivity.
  - intros n w W f d r F D0 D _. destruct f as [|f]; [lia|]. cbn [app p_val]. rewrite skip_ws_stop by (cbn [In]; lia).
    change (91 =? 123) with false. change (91 =? 91) with true. cbv iota. rewrite (max_depth_pos d n) by lia.
    rewrite <- app_assoc, skip_ws_pre by exact W. cbn [app]. rewrite skip_ws_stop by exact ws_no_bracket. reflexivity.
  - intros n l s NE J IH f d r F D0 D _. destruct f as [|f]; [lia|]. cbn [app length] in *. rewrite app_length in F. cbn [length] in F.
    rewrite <- app_assoc. cbn [app].
    assert (H : exists x r1, skip_ws (s ++ 93 :: r) = x :: r1 /\ x <> 93).
    { destruct J as [n v w1 t w2 W1 _ T|n v w1 t w2 l t' W1 _ T _ _]; destruct (value_head _ _ _ T) as (c & q & -> & C1 & C2 & _);
        exists c; eexists; rewrite <- app_assoc, skip_ws_pre by exact W1; cbn [app]; (rewrite skip_ws_stop by exact C1);
        (split; [reflexivity|exact C2]). }
    destruct H as (x & r1 & E & N). rewrite (p_val_arr f d _ x r1 D0 (max_depth_pos d n ltac:(lia)) E N).
    rewrite (IH f (d + 1) r) by lia. reflexivity.
  - intros n w W f d r F D0 D _. destruct f as [|f]; [lia|]. cbn [app p_val]. rewrite skip_ws_stop by (cbn [In]; lia).
    change (123 =? 123) with true. cbv iota. rewrite (max_depth_pos d n) by lia.
    rewrite <- app_assoc, skip_ws_pre by exact W. cbn [app]. rewrite skip_ws_stop by exact ws_no_brace. reflexivity.
  - intros n l s NE J IH f d r F D0 D _. destruct f as [|f]; [lia|]. cbn [app length] in *. rewrite app_length in F. cbn [length] in F.
    rewrite <- app_assoc. cbn [app].
    assert (H : exists r1, skip_ws (s ++ 125 :: r) = 34 :: r1).
    { destruct J as [n k v w1 sk w2 w3 t w4 W1 W2 W3 W4 (u & _ & ->) _|n k v w1 sk w2 w3 t w4 l t' W1 W2 W3 W4 (u & _ & ->) _ _ _];
        eexists; rewrite <- app_assoc, skip_ws_pre by exact W1; cbn [app]; (rewrite skip_ws_stop by exact ws_no_quote); reflexivity. }
    destruct H as (r1 & E). rewrite (p_val_obj f d _ 34 r1 D0 (max_depth_pos d n ltac:(lia)) E) by lia.
    rewrite (IH f (d + 1) r) by lia. reflexivity.
  - intros n v w1 s w2 W1 W2 J IH f d r F D0 D. destruct f as [|f]; [lia|]. rewrite !app_length in F. rewrite <- !app_assoc.
    cbn [p_elems]. rewrite p_val_ws by exact W1. rewrite (IH f d) by (try apply stop_ws; try exact W2; lia).
    rewrite skip_ws_pre by exact W2. rewrite skip_ws_stop by exact ws_no_bracket. reflexivity.
  - intros n v w1 s w2 l t W1 W2 J IH NE J2 IH2 f d r F D0 D. destruct f as [|f]; [lia|]. rewrite !app_length in F. cbn [length] in F.
    rewrite <- !app_assoc, <- app_comm_cons.
    cbn [p_elems]. rewrite p_val_ws by exact W1. rewrite (IH f d) by (try apply stop_ws; try exact W2; lia).
    rewrite skip_ws_pre by exact W2. rewrite skip_ws_stop by exact ws_no_comma. change (44 =? 44) with true. cbv iota.
    rewrite (IH2 f d r) by lia. reflexivity.
  - intros n k v w1 sk w2 w3 s w4 W1 W2 W3 W4 K J IH f d r F D0 D. destruct f as [|f]; [lia|].
    repeat (rewrite app_length in F || cbn [length] in F).
    replace ((w1 ++ sk ++ w2 ++ 58 :: w3 ++ s ++ w4) ++ 125 :: r) with (w1 ++ sk ++ w2 ++ 58 :: w3 ++ s ++ w4 ++ 125 :: r)
      by (repeat (rewrite <- app_assoc || rewrite <- app_comm_cons); reflexivity).
    rewrite (p_members_step f d w1 k sk w2) by assumption. rewrite p_val_ws by exact W3.
    rewrite (IH f d) by (try apply stop_ws; try exact W4; lia).
    rewrite skip_ws_pre by exact W4. rewrite skip_ws_stop by exact ws_no_brace. reflexivity.
  - intros n k v w1 sk w2 w3 s w4 l t W1 W2 W3 W4 K J IH NE J2 IH2 f d r F D0 D. destruct f as [|f]; [lia|].
    repeat (rewrite app_length in F || cbn [length] in F).
    replace ((w1 ++ sk ++ w2 ++ 58 :: w3 ++ s ++ w4 ++ 44 :: t) ++ 125 :: r) with (w1 ++ sk ++ w2 ++ 58 :: w3 ++ s ++ w4 ++ 44 :: t ++ 125 :: r)
      by (repeat (rewrite <- app_assoc || rewrite <- app_comm_cons); reflexivity).
    rewrite (p_members_step f d w1 k sk w2) by assumption. rewrite p_val_ws by exact W3.
    rewrite (IH f d) by (try apply stop_ws; try exact W4; lia).
    rewrite skip_ws_pre by exact W4. rewrite skip_ws_stop by exact ws_no_comma. change (44 =? 44) with true. cbv iota.
    rewrite (IH2 f d r) by lia. reflexivity.
Qed.

Theorem document_read : forall n v s, Z.of_nat n <= 10000 -> jdocument n v s -> parse_json s = JOk v [].
Proof.
  intros n v s N (w1 & t & w2 & W1 & W2 & J & ->). unfold parse_json. rewrite p_val_ws by exact W1.
  assert (ST : stop w2) by (destruct W2 as [|c w C W]; [exact I|]; cbn [stop In] in *; lia).
  rewrite (proj1 reads n v t J) by (try exact ST; rewrite ?app_length; lia).
  rewrite skip_ws_all by exact W2. reflexivity.
Qed.

(** ** Reading on *)
Definition is_num (v : json) : Prop := match v with JNum _ => True | _ => False end.
Lemma has_prefix_app : forall p s x, has_prefix s p = true -> has_prefix (s ++ x) p = true.
Proof.
  induction p as [|y p IH]; intros s x H; [destruct (s ++ x); reflexivity|].
  destruct s as [|c s]; [discriminate H|]. cbn [app has_prefix] in *. apply andb_true_iff in H. destruct H as (A & B).
  rewrite A, (IH _ _ B). reflexivity.
Qed.
Lemma has_prefix_skipn : forall p s x, has_prefix s p = true -> skipn (length p) (s ++ x) = skipn (length p) s ++ x.
Proof.
  induction p as [|y p IH]; intros s x H; [reflexivity|].
  destruct s as [|c s]; [discriminate H|]. cbn [app has_prefix length skipn] in *. apply andb_true_iff in H. apply IH, H.
Qed.
Lemma p_num_letter : forall c s, c <> 45 -> ~ (48 <= c <= 57) -> p_num (c :: s) = None.
Proof.
  intros c s N D. unfold p_num. rewrite (proj2 (Z.eqb_neq c 45) N). rewrite (proj2 (Z.eqb_neq c 48)) by lia.
  rewrite is_dig_false by exact D. reflexivity.
Qed.

Definition word (s : bytes) : jres json :=
  if has_prefix s (str "null") then JOk JNull (skipn 4 s)
  else if has_prefix s (str "true") then JOk (JBool true) (skipn 4 s)
  else if has_prefix s (str "false") then JOk (JBool false) (skipn 5 s)
  else match p_num s with Some (t, r1) => JOk (JNum t) r1 | None => JErr end.
Lemma word_app : forall s v r x, word s = JOk v r -> (is_num v -> r <> []) -> word (s ++ x) = JOk v (r ++ x).
Proof.
  intros s v r x H N. unfold word in *.
  destruct (has_prefix s (str "null")) eqn:E1.
  { injection H as <- <-. rewrite (has_prefix_app _ _ x E1). pose proof (has_prefix_skipn (str "null") s x E1) as K. change (length (str "null")) with 4%nat in K. rewrite K. clear K. reflexivity. }
  destruct (has_prefix s (str "true")) eqn:E2.
  { injection H as <- <-. rewrite (has_prefix_app _ _ x E2).
    pose proof (has_prefix_skipn (str "true") s x E2) as K. change (length (str "true")) with 4%nat in K. rewrite K. clear K. destruct s as [|c s]; [discriminate E2|]. cbn [app]. change (str "null") with (110 :: str "ull").
    cbn [has_prefix str] in E2. apply andb_true_iff in E2. destruct E2 as (E2 & _). apply Z.eqb_eq in E2. subst c. reflexivity. }
  destruct (has_prefix s (str "false")) eqn:E3.
  { injection H as <- <-. rewrite (has_prefix_app _ _ x E3).
    pose proof (has_prefix_skipn (str "false") s x E3) as K. change (length (str "false")) with 5%nat in K. rewrite K. clear K. destruct s as [|c s]; [discriminate E3|]. cbn [app].
    cbn [has_prefix str] in E3. apply andb_true_iff in E3. destruct E3 as (E3 & _). apply Z.eqb_eq in E3. subst c. reflexivity. }
  destruct (p_num s) as [[t r1]|] eqn:P; [|discriminate H]. injection H as <- <-. specialize (N I).
  rewrite (p_num_app _ _ _ x P N).
  destruct s as [|c s]; [discriminate P|]. cbn [app].
  assert (C : c = 45 \/ 48 <= c <= 57).
  { destruct (Z.eq_dec c 45) as [|A]; [left; assumption|]. destruct (Z_le_dec 48 c) as [B|B]; [destruct (Z_le_dec c 57) as [D|D]; [right; lia|]|];
      rewrite p_num_letter in P by lia; discriminate P. }
  change (str "null") with (110 :: str "ull"). change (str "true") with (116 :: str "rue"). change (str "false") with (102 :: str "alse").
  cbn [has_prefix]. rewrite (proj2 (Z.eqb_neq c 110)), (proj2 (Z.eqb_neq c 116)), (proj2 (Z.eqb_neq c 102)) by lia. reflexivity.
Qed.
Lemma word_rest : forall s v r, word s = JOk v r -> (length r < length s)%nat.
Proof.
  assert (K : forall p s, p <> [] -> has_prefix s p = true -> (length (skipn (length p) s) < length s)%nat).
  { intros p s N H. rewrite skipn_length. destruct p as [|a p]; [contradiction|]. destruct s; [discriminate H|]. cbn [length]. lia. }
  intros s v r H. unfold word in H.
  destruct (has_prefix s (str "null")) eqn:E1; [injection H as <- <-; apply (K (str "null")); [discriminate|exact E1]|].
  destruct (has_prefix s (str "true")) eqn:E2; [injection H as <- <-; apply (K (str "true")); [discriminate|exact E2]|].
  destruct (has_prefix s (str "false")) eqn:E3; [injection H as <- <-; apply (K (str "false")); [discriminate|exact E3]|].
  destruct (p_num s) as [[t r1]|] eqn:P; [|discriminate H]. injection H as <- <-. exact (p_num_rest _ _ _ P).
Qed.

Lemma p_val_eq : forall n d s, p_val (S n) d s =
  match skip_ws s with
  | [] => JErr
  | c :: r =>
      if c =? 123 then
        if max_depth <=? d then JErr
        else match skip_ws r with
             | [] => JErr
             | x :: r1 =>
                 if x =? 125 then JOk (JObj []) r1
                 else match p_members n (d + 1) r with JOk l r2 => JOk (JObj l) r2 | JErr => JErr | JFuel => JFuel end
             end
      else if c =? 91 then
        if max_depth <=? d then JErr
        else match skip_ws r with
             | [] => JErr
             | x :: r1 =>
                 if x =? 93 then JOk (JArr []) r1
                 else match p_elems n (d + 1) r with JOk l r2 => JOk (JArr l) r2 | JErr => JErr | JFuel => JFuel end
             end
      else if c =? 34 then match p_chars r with Some (t, r1) => JOk (JStr t) r1 | None => JErr end
      else word (c :: r)
  end.
Proof. reflexivity. Qed.

Lemma read_on : forall n,
  (forall d s v r, p_val n d s = JOk v r -> (is_num v -> r <> []) -> forall m x, (n <= m)%nat -> p_val m d (s ++ x) = JOk v (r ++ x)) /\
  (forall d s v r, p_members n d s = JOk v r -> forall m x, (n <= m)%nat -> p_members m d (s ++ x) = JOk v (r ++ x)) /\
  (forall d s v r, p_elems n d s = JOk v r -> forall m x, (n <= m)%nat -> p_elems m d (s ++ x) = JOk v (r ++ x)).
Proof.
  induction n as [|n (IHv & IHm & IHe)]; [repeat split; intros; discriminate|].
  split; [|split].
  - intros d s v r H N m x L. destruct m as [|m]; [lia|]. rewrite p_val_eq in *.
    destruct (skip_ws s) as [|c q] eqn:E; [discriminate H|]. rewrite (skip_ws_cons_app _ x _ _ E).
    destruct (c =? 123).
    { destruct (max_depth <=? d); [discriminate H|]. destruct (skip_ws q) as [|y q1] eqn:E1; [discriminate H|].
      rewrite (skip_ws_cons_app _ x _ _ E1). destruct (y =? 125); [injection H as <- <-; reflexivity|].
      destruct (p_members n (d + 1) q) as [l r2| |] eqn:P; try discriminate H. injection H as <- <-.
      rewrite (IHm _ _ _ _ P m x) by lia. reflexivity. }
    destruct (c =? 91).
    { destruct (max_depth <=? d); [discriminate H|]. destruct (skip_ws q) as [|y q1] eqn:E1; [discriminate H|].
      rewrite (skip_ws_cons_app _ x _ _ E1). destruct (y =? 93); [injection H as <- <-; reflexivity|].
      destruct (p_elems n (d + 1) q) as [l r2| |] eqn:P; try discriminate H. injection H as <- <-.
      rewrite (IHe _ _ _ _ P m x) by lia. reflexivity. }
    destruct (c =? 34).
    { destruct (p_chars q) as [[t r1]|] eqn:P; [|discriminate H]. injection H as <- <-. rewrite (p_chars_app _ _ _ x P). reflexivity. }
    exact (word_app (c :: q) v r x H N).
  - intros d s v r H m x L. destruct m as [|m]; [lia|]. cbn [p_members] in *.
    destruct (skip_ws s) as [|c q] eqn:E; [discriminate H|]. rewrite (skip_ws_cons_app _ x _ _ E).
    destruct (c =? 34); [|discriminate H].
    destruct (p_chars q) as [[t r1]|] eqn:P; [|discriminate H]. rewrite (p_chars_app _ _ _ x P).
    destruct (skip_ws r1) as [|y q1] eqn:E1; [discriminate H|]. rewrite (skip_ws_cons_app _ x _ _ E1).
    destruct (y =? 58); [|discriminate H].
    destruct (p_val n d q1) as [w r3| |] eqn:PV; try discriminate H.
    destruct (skip_ws r3) as [|z q3] eqn:E3; [discriminate H|].
    rewrite (IHv _ _ _ _ PV) with (m := m) by (try lia; intros _ Q; subst r3; discriminate E3).
    rewrite (skip_ws_cons_app _ x _ _ E3).
    destruct (z =? 44).
    + destruct (p_members n d q3) as [l r5| |] eqn:PM; try discriminate H. injection H as <- <-.
      rewrite (IHm _ _ _ _ PM m x) by lia. reflexivity.
    + destruct (z =? 125); [|discriminate H]. injection H as <- <-. reflexivity.
  - intros d s v r H m x L. destruct m as [|m]; [lia|]. cbn [p_elems] in *.
    destruct (p_val n d s) as [w r3| |] eqn:PV; try discriminate H.
    destruct (skip_ws r3) as [|z q3] eqn:E3; [discriminate H|].
    rewrite (IHv _ _ _ _ PV) with (m := m) by (try lia; intros _ Q; subst r3; discriminate E3).
    rewrite (skip_ws_cons_app _ x _ _ E3).
    destruct (z =? 44).
    + destruct (p_elems n d q3) as [l r5| |] eqn:PM; try discriminate H. injection H as <- <-.
      rewrite (IHe _ _ _ _ PM m x) by lia. reflexivity.
    + destruct (z =? 93); [|discriminate H]. injection H as <- <-. reflexivity.
Qed.

(** ** The fuel *)
Lemma rest_shorter : forall n,
  (forall d s v r, p_val n d s = JOk v r -> (length r < length s)%nat) /\
  (forall d s v r, p_members n d s = JOk v r -> (length r < length s)%nat) /\
  (forall d s v r, p_elems n d s = JOk v r -> (length r < length s)%nat).
Proof.
  induction n as [|n (IHv & IHm & IHe)]; [repeat split; intros; discriminate|].
  split; [|split].
  - intros d s v r H. rewrite p_val_eq in H.
    destruct (skip_ws s) as [|c q] eqn:E; [discriminate H|]. apply skip_ws_cons_length in E.
    destruct (c =? 123).
    { destruct (max_depth <=? d); [discriminate H|]. destruct (skip_ws q) as [|y q1] eqn:E1; [discriminate H|]. apply skip_ws_cons_length in E1.
      destruct (y =? 125); [injection H as <- <-; lia|].
      destruct (p_members n (d + 1) q) as [l r2| |] eqn:P; try discriminate H. injection H as <- <-. apply IHm in P. lia. }
    destruct (c =? 91).
    { destruct (max_depth <=? d); [discriminate H|]. destruct (skip_ws q) as [|y q1] eqn:E1; [discriminate H|]. apply skip_ws_cons_length in E1.
      destruct (y =? 93); [injection H as <- <-; lia|].
      destruct (p_elems n (d + 1) q) as [l r2| |] eqn:P; try discriminate H. injection H as <- <-. apply IHe in P. lia. }
    destruct (c =? 34).
    { destruct (p_chars q) as [[t r1]|] eqn:P; [|discriminate H]. injection H as <- <-. apply p_chars_rest in P. lia. }
    apply word_rest in H. cbn [length] in H. lia.
  - intros d s v r H. cbn [p_members] in H.
    destruct (skip_ws s) as [|c q] eqn:E; [discriminate H|]. apply skip_ws_cons_length in E.
    destruct (c =? 34); [|discriminate H].
    destruct (p_chars q) as [[t r1]|] eqn:P; [|discriminate H]. apply p_chars_rest in P.
    destruct (skip_ws r1) as [|y q1] eqn:E1; [discriminate H|]. apply skip_ws_cons_length in E1.
    destruct (y =? 58); [|discriminate H].
    destruct (p_val n d q1) as [w r3| |] eqn:PV; try discriminate H. apply IHv in PV.
    destruct (skip_ws r3) as [|z q3] eqn:E3; [discriminate H|]. apply skip_ws_cons_length in E3.
    destruct (z =? 44).
    + destruct (p_members n d q3) as [l r5| |] eqn:PM; try discriminate H. injection H as <- <-. apply IHm in PM. lia.
    + destruct (z =? 125); [|discriminate H]. injection H as <- <-. lia.
  - intros d s v r H. cbn [p_elems] in H.
    destruct (p_val n d s) as [w r3| |] eqn:PV; try discriminate H. apply IHv in PV.
    destruct (skip_ws r3) as [|z q3] eqn:E3; [discriminate H|]. apply skip_ws_cons_length in E3.
    destruct (z =? 44).
    + destruct (p_elems n d q3) as [l r5| |] eqn:PM; try discriminate H. injection H as <- <-. apply IHe in PM. lia.
    + destruct (z =? 93); [|discriminate H]. injection H as <- <-. lia.
Qed.
Lemma word_fuel : forall s, word s <> JFuel.
Proof.
  intros s. unfold word. destruct (has_prefix s (str "null")); [discriminate|]. destruct (has_prefix s (str "true")); [discriminate|].
  destruct (has_prefix s (str "false")); [discriminate|]. destruct (p_num s) as [[t r]|]; discriminate.
Qed.
Lemma fuel_enough : forall n,
  (forall d s, (2 * length s + 1 <= n)%nat -> p_val n d s <> JFuel) /\
  (forall d s, (2 * length s + 1 <= n)%nat -> p_members n d s <> JFuel) /\
  (forall d s, (2 * length s + 2 <= n)%nat -> p_elems n d s <> JFuel).
Proof.
  induction n as [|n (IHv & IHm & IHe)]; [repeat split; intros; lia|].
  destruct (rest_shorter n) as (RV & RM & RE).
  split; [|split].
  - intros d s L. rewrite p_val_eq.
    destruct (skip_ws s) as [|c q] eqn:E; [discriminate|]. apply skip_ws_cons_length in E.
    destruct (c =? 123).
    { destruct (max_depth <=? d); [discriminate|]. destruct (skip_ws q) as [|y q1]; [discriminate|].
      destruct (y =? 125); [discriminate|]. specialize (IHm (d + 1) q ltac:(lia)).
      destruct (p_members n (d + 1) q); [discriminate..|contradiction]. }
    destruct (c =? 91).
    { destruct (max_depth <=? d); [discriminate|]. destruct (skip_ws q) as [|y q1]; [discriminate|].
      destruct (y =? 93); [discriminate|]. specialize (IHe (d + 1) q ltac:(lia)).
      destruct (p_elems n (d + 1) q); [discriminate..|contradiction]. }
    destruct (c =? 34); [destruct (p_chars q) as [[t r1]|]; discriminate|]. apply word_fuel.
  - intros d s L. cbn [p_members].
    destruct (skip_ws s) as [|c q] eqn:E; [discriminate|]. apply skip_ws_cons_length in E.
    destruct (c =? 34); [|discriminate].
    destruct (p_chars q) as [[t r1]|] eqn:P; [|discriminate]. apply p_chars_rest in P.
    destruct (skip_ws r1) as [|y q1] eqn:E1; [discriminate|]. apply skip_ws_cons_length in E1.
    destruct (y =? 58); [|discriminate]. specialize (IHv d q1 ltac:(lia)).
    destruct (p_val n d q1) as [w r3| |] eqn:PV; [|discriminate|contradiction]. apply RV in PV.
    destruct (skip_ws r3) as [|z q3] eqn:E3; [discriminate|]. apply skip_ws_cons_length in E3.
    destruct (z =? 44); [|destruct (z =? 125); discriminate]. specialize (IHm d q3 ltac:(lia)).
    destruct (p_members n d q3); [discriminate..|contradiction].
  - intros d s L. cbn [p_elems]. specialize (IHv d s ltac:(lia)).
    destruct (p_val n d s) as [w r3| |] eqn:PV; [|discriminate|contradiction]. apply RV in PV.
    destruct (skip_ws r3) as [|z q3] eqn:E3; [discriminate|]. apply skip_ws_cons_length in E3.
    destruct (z =? 44); [|destruct (z =? 93); discriminate]. specialize (IHe d q3 ltac:(lia)).
    destruct (p_elems n d q3); [discriminate..|contradiction].
Qed.
Theorem parse_total : forall s, parse_json s <> JFuel.
Proof.
  intros s. unfold parse_json. pose proof (proj1 (fuel_enough (2 * length s + 2)) 0 s ltac:(lia)) as H.
  destruct (p_val (2 * length s + 2) 0 s) as [v r| |]; [destruct (skip_ws r); discriminate|discriminate|contradiction].
Qed.

(** ** Texts cut short *)
Lemma num_head : forall f d c s t r, ~ In c [32; 9; 10; 13] -> p_val (S f) d (c :: s) = JOk (JNum t) r -> c = 45 \/ 48 <= c <= 57.
Proof.
  intros f d c s t r W H. rewrite p_val_eq, skip_ws_stop in H by exact W.
  destruct (c =? 123).
  { destruct (max_depth <=? d); [discriminate H|]. destruct (skip_ws s) as [|y q]; [discriminate H|]. destruct (y =? 125); [discriminate H|].
    destruct (p_members f (d + 1) s); discriminate H. }
  destruct (c =? 91).
  { destruct (max_depth <=? d); [discriminate H|]. destruct (skip_ws s) as [|y q]; [discriminate H|]. destruct (y =? 93); [discriminate H|].
    destruct (p_elems f (d + 1) s); discriminate H. }
  destruct (c =? 34); [destruct (p_chars s) as [[a b]|]; discriminate H|]. unfold word in H.
  destruct (has_prefix (c :: s) (str "null")); [discriminate H|]. destruct (has_prefix (c :: s) (str "true")); [discriminate H|].
  destruct (has_prefix (c :: s) (str "false")); [discriminate H|].
  destruct (p_num (c :: s)) as [[a b]|] eqn:P; [|discriminate H].
  destruct (Z.eq_dec c 45) as [|A]; [left; assumption|]. destruct (Z_le_dec 48 c) as [B|B]; [destruct (Z_le_dec c 57) as [D|D]; [right; lia|]|];
      rewrite p_num_letter in P by lia; discriminate P.
Qed.
Theorem prefix_refused : forall n v t p x, Z.of_nat n <= 10000 -> jtext n v t -> ~ is_num v -> t = p ++ x -> x <> [] ->
  parse_json p = JErr.
Proof.
  intros n v t p x N J NN E NX. destruct (parse_json p) as [v' r'| |] eqn:P; [exfalso|reflexivity|exfalso; exact (parse_total p P)].
  unfold parse_json in P. destruct (p_val (2 * length p + 2) 0 p) as [v1 r1| |] eqn:PV; try discriminate P.
  destruct (skip_ws r1) eqn:S1; [|discriminate P].
  pose proof (proj1 reads n v t J (2 * length t + 2)%nat 0 [] ltac:(lia) ltac:(lia) ltac:(lia) I) as R. rewrite app_nil_r in R.
  destruct p as [|c p]; [discriminate PV|].
  destruct (value_head n v t J) as (c0 & q & Et & W & _). assert (c0 = c) by (rewrite Et in E; injection E; auto). subst c0.
  assert (NV : ~ is_num v1).
  { intro M. destruct v1 as [| |tx| | |]; try contradiction.
    assert (C : c = 45 \/ 48 <= c <= 57) by (eapply num_head; [exact W|replace (2 * length (c :: p) + 2)%nat with (S (2 * length (c :: p) + 1)) in PV by lia; exact PV]).
    subst t. rewrite Et in R. replace (2 * length (c :: q) + 2)%nat with (S (2 * length (c :: q) + 1)) in R by lia.
    rewrite p_val_num in R by exact C. destruct (p_num (c :: q)) as [[a b]|]; [|discriminate R]. injection R as <- _. apply NN. exact I. }
  pose proof (proj1 (read_on _) _ _ _ _ PV ltac:(intro M; contradiction) (2 * length t + 2)%nat x) as RO.
  rewrite <- E in RO. rewrite R in RO. specialize (RO ltac:(subst t; rewrite app_length; lia)). injection RO as _ RO.
  symmetry in RO. apply app_eq_nil in RO. destruct RO as (_ & RO). contradiction.
Qed.
