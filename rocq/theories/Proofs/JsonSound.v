(** What the reader accepts is a JSON text, and what the writer writes is one,
    also for texts that are not UTF-8. *)
From Coq Require Import List ZArith Lia Bool String.
From Verif.Model Require Import Base Str Der Json.
From Verif.Spec Require Import JsonSpec.
From Verif.Proofs Require Import JsonStr JsonProofs JsonVal JsonEnc.
Import ListNotations.
Open Scope Z_scope.

(** ** Characters *)
Lemma rune_some : forall b r k, 128 <= b -> rune_more (b :: r) = Some k ->
  exists c r', scalar c /\ 128 <= c /\ b :: r = utf8 c ++ r' /\ length (utf8 c) = S k.
Proof.
  intros b r k Hb H. destruct r as [|c r]; [discriminate H|]. cbn [rune_more] in H.
  destruct (in_range 194 223 b) eqn:R1.
  { destruct (in_range 128 191 c) eqn:R; [|discriminate H]. injection H as <-. apply in_range_spec in R, R1.
    assert (E : utf8 ((b - 192) * 64 + (c - 128)) = [b; c]).
    { unfold utf8. replace (_ <? 128) with false by lia. replace (_ <? 2048) with true by lia. repeat f_equal; Z.div_mod_to_equations; lia. }
    exists ((b - 192) * 64 + (c - 128)), r. rewrite E. unfold scalar. repeat split; lia. }
  destruct r as [|d r]; [discriminate H|].
  destruct (in_range 224 239 b) eqn:R2.
  { destruct (in_range _ _ c && in_range 128 191 d) eqn:R; [|discriminate H]. injection H as <-.
    apply andb_prop in R. destruct R as [Rc Rd]. apply in_range_spec in Rc, Rd, R2.
    assert (A : b <> 224 -> 128 <= c) by (intros; destruct (b =? 224) eqn:?; lia).
    assert (B : b = 224 -> 160 <= c) by (intros; destruct (b =? 224) eqn:?; lia).
    assert (C : b = 237 -> c <= 159) by (intros; destruct (b =? 237) eqn:?; lia).
    assert (D : c <= 191) by (destruct (b =? 237); lia). clear Rc.
    assert (E : utf8 ((b - 224) * 4096 + (c - 128) * 64 + (d - 128)) = [b; c; d]).
    { unfold utf8. replace (_ <? 128) with false by lia. replace (_ <? 2048) with false by lia.
      replace (_ <? 65536) with true by lia. repeat f_equal; Z.div_mod_to_equations; lia. }
    exists ((b - 224) * 4096 + (c - 128) * 64 + (d - 128)), r. rewrite E. unfold scalar. repeat split; lia. }
  destruct r as [|e r]; [discriminate H|].
  destruct (in_range 240 244 b && in_range _ _ c && in_range 128 191 d && in_range 128 191 e) eqn:R; [|discriminate H]. injection H as <-.
  apply andb_prop in R. destruct R as [R Re]. apply andb_prop in R. destruct R as [R Rd]. apply andb_prop in R. destruct R as [Rb Rc].
  apply in_range_spec in Rb, Rc, Rd, Re.
  assert (A : b <> 240 -> 128 <= c) by (intros; destruct (b =? 240) eqn:?; lia).
  assert (B : b = 240 -> 144 <= c) by (intros; destruct (b =? 240) eqn:?; lia).
  assert (C : b = 244 -> c <= 143) by (intros; destruct (b =? 244) eqn:?; lia).
  assert (D : c <= 191) by (destruct (b =? 244); lia). clear Rc.
  assert (E : utf8 ((b - 240) * 262144 + (c - 128) * 4096 + (d - 128) * 64 + (e - 128)) = [b; c; d; e]).
  { unfold utf8. replace (_ <? 128) with false by lia. replace (_ <? 2048) with false by lia.
    replace (_ <? 65536) with false by lia. repeat f_equal; Z.div_mod_to_equations; lia. }
  exists ((b - 240) * 262144 + (c - 128) * 4096 + (d - 128) * 64 + (e - 128)), r. rewrite E. unfold scalar. repeat split; lia.
Qed.

Lemma utf8_ascii : forall c, c < 128 -> utf8 c = [c].
Proof. intros c H. unfold utf8. replace (c <? 128) with true by lia. reflexivity. Qed.
Lemma rune_none : forall b r, 128 <= b -> rune_more (b :: r) = None -> ~ begins (b :: r).
Proof.
  intros b r Hb H (c & r' & Sc & E). destruct (Z.ltb_spec c 128) as [L|L].
  { rewrite utf8_ascii in E by exact L. injection E as -> _. lia. }
  rewrite E in H. destruct (utf8_shape c Sc L r') as [(? & ? & _ & _ & R)|[(? & ? & ? & _ & _ & R)|(? & ? & ? & ? & _ & _ & R)]];
    rewrite R in H; discriminate H.
Qed.
Lemma rune_fit : forall b r k, rune_more (b :: r) = Some k -> k = 1%nat \/ k = 2%nat \/ k = 3%nat.
Proof.
  intros b r k H. destruct r as [|c r]; [discriminate H|]. cbn [rune_more] in H.
  destruct (in_range 194 223 b); [destruct (in_range 128 191 c); [injection H as <-; auto|discriminate H]|].
  destruct r as [|d r]; [discriminate H|]. destruct (in_range 224 239 b).
  { match type of H with (if ?q then _ else _) = _ => destruct q end; [injection H as <-; auto|discriminate H]. }
  destruct r as [|e r]; [discriminate H|].
  match type of H with (if ?q then _ else _) = _ => destruct q end; [injection H as <-; auto|discriminate H].
Qed.

Lemma utf8_tail : forall c, scalar c -> Forall (fun b => 128 <= b) (tl (utf8 c)).
Proof.
  intros c (C & _). unfold utf8. destruct (c <? 128); [constructor|]. destruct (c <? 2048); [|destruct (c <? 65536)]; cbn [tl];
    repeat constructor; match goal with |- _ <= _ + ?x mod 64 => pose proof (Z.mod_pos_bound x 64 ltac:(lia)); lia end.
Qed.
Lemma begins_app : forall a b, a <> [] -> hd 0 b < 128 -> begins (a ++ b) -> begins a.
Proof.
  intros a b N Hb (c & r & Sc & E). destruct b as [|y b].
  { exists c, r. rewrite app_nil_r in E. split; assumption. }
  cbn [hd] in Hb. symmetry in E. apply app_eq_app in E. destruct E as (l & [(E1 & E2)|(E1 & E2)]).
  - destruct l as [|z l].
    + exists c, []. rewrite app_nil_r in *. split; [assumption|symmetry; assumption].
    + exfalso. cbn [app] in E2. injection E2 as <- _. pose proof (utf8_tail c Sc) as F. rewrite E1 in F.
      destruct a as [|x a]; [contradiction|]. cbn [app tl] in F. rewrite Forall_app in F. destruct F as (_ & F). inversion F; subst. lia.
  - exists c, l. split; assumption.
Qed.
Lemma begins_more : forall a b, begins a -> begins (a ++ b).
Proof. intros a b (c & r & Sc & ->). exists c, (r ++ b). split; [exact Sc|now rewrite app_assoc]. Qed.

Lemma repaired_app : forall a a' b b', repaired a a' -> hd 0 b < 128 -> repaired b b' -> repaired (a ++ b) (a' ++ b').
Proof.
  intros a a' b b' R Hb Rb. induction R as [|c s t Sc R IH|x s t N R IH|c h s t C H R IH].
  - exact Rb.
  - rewrite <- !app_assoc. now apply rp_char.
  - rewrite <- app_assoc. change ((x :: s) ++ b) with (x :: s ++ b). apply rp_byte; [|exact IH]. intro B. apply N.
    apply (begins_app (x :: s) b); [discriminate|exact Hb|exact B].
  - cbn [app]. rewrite <- app_assoc. exact (rp_half c h (s ++ b) (t ++ b') C H IH).
Qed.
Lemma repaired_ascii : forall a s t, Forall (fun b => 0 <= b < 128) a -> repaired s t -> repaired (a ++ s) (a ++ t).
Proof.
  intros a s t F R. induction F as [|x a X F IH]; [exact R|]. cbn [app].
  pose proof (rp_char x (a ++ s) (a ++ t)) as P. rewrite (utf8_ascii x) in P by lia. apply P; [unfold scalar; lia|exact IH].
Qed.
Lemma repaired_cons : forall x s t, 0 <= x < 128 -> repaired s t -> repaired (x :: s) (x :: t).
Proof. intros x s t X R. apply (repaired_ascii [x]); [repeat constructor; lia|exact R]. Qed.
Lemma repaired_self : forall a, Forall (fun b => 0 <= b < 128) a -> repaired a a.
Proof. intros a F. pose proof (repaired_ascii a [] [] F rp_nil) as R. now rewrite app_nil_r in R. Qed.
Lemma ws_repaired : forall w, ws w -> repaired w w.
Proof. intros w W. apply repaired_self. revert W. apply Forall_impl. cbn [In]. intros; lia. Qed.

(** ** Strings *)
Lemma hexv_back : forall c n, hexv c = Some n -> hex_digit n c /\ 0 <= n < 16 /\ 0 <= c < 128.
Proof.
  intros c n H. unfold hexv in H. unfold hex_digit.
  destruct (in_range 48 57 c) eqn:R1; [apply in_range_spec in R1; injection H as <-; lia|].
  destruct (in_range 97 102 c) eqn:R2; [apply in_range_spec in R2; injection H as <-; lia|].
  destruct (in_range 65 70 c) eqn:R3; [apply in_range_spec in R3; injection H as <-; lia|discriminate H].
Qed.
Lemma hex4_back : forall w x y z n, hex4 w x y z = Some n -> hex_four n [w; x; y; z] /\ 0 <= n < 65536 /\ Forall (fun b => 0 <= b < 128) [w; x; y; z].
Proof.
  intros w x y z n H. unfold hex4 in H.
  destruct (hexv w) as [a|] eqn:A; [|discriminate H]. destruct (hexv x) as [b|] eqn:B; [|discriminate H].
  destruct (hexv y) as [c|] eqn:C; [|discriminate H]. destruct (hexv z) as [d|] eqn:D; [|discriminate H]. injection H as <-.
  apply hexv_back in A, B, C, D. split; [|split; [lia|repeat constructor; lia]].
  exists a, b, c, d, w, x, y, z. tauto.
Qed.
Lemma zlook_in : forall e c l, zlook e l = Some c -> In (e, c) l.
Proof.
  intros e c l H. induction l as [|[k v] l IH]; [discriminate H|]. cbn [zlook] in H. destruct (Z.eqb_spec e k) as [->|N].
  - injection H as ->. now left.
  - right. now apply IH.
Qed.
Lemma half_char : jchar 65533 (92 :: 117 :: [102; 102; 102; 100]).
Proof.
  apply jc_u; [unfold scalar; lia|]. exists 15, 15, 15, 13, 102, 102, 102, 100. unfold hex_digit. repeat split; lia.
Qed.
Lemma bad_char : jchar 65533 (utf8 65533).
Proof. apply jc_plain; [unfold scalar; lia|lia..]. Qed.

Lemma p_chars_sound : forall s v r, p_chars s = Some (v, r) ->
  exists u u', s = u ++ 34 :: r /\ repaired u u' /\ jchars v u'.
Proof.
  intros s. remember (length s) as n eqn:N. assert (L : (length s <= n)%nat) by lia. clear N. revert s L.
  induction n as [|n IH]; intros s L v r H.
  { destruct s; [discriminate H|cbn [length] in L; lia]. }
  assert (ST : forall c p t v r, (length t <= n)%nat -> pre (utf8 c) (p_chars t) = Some (v, r) ->
    (forall u u', t = u ++ 34 :: r -> repaired u u' -> exists j, repaired (p ++ u) (j ++ u') /\ jchar c j) ->
    exists u u', p ++ t = u ++ 34 :: r /\ repaired u u' /\ jchars v u').
  { intros c p t v0 r0 L0 H0 Q. destruct (pre_some _ _ _ _ H0) as (v' & E & ->). destruct (IH t L0 _ _ E) as (u & u' & -> & R & J).
    destruct (Q u u' eq_refl R) as (j & R' & C). exists (p ++ u), (j ++ u'). split; [now rewrite app_assoc|]. split; [exact R'|now apply js_cons]. }
  destruct s as [|b s]; [discriminate H|]. cbn [length] in L.
  destruct (Z.ltb_spec b 128) as [B|B].
  - destruct (Z.eqb_spec b 34) as [->|N1].
    { cbn in H. injection H as <- <-. exists [], []. split; [reflexivity|]. split; constructor. }
    destruct (Z.eqb_spec b 92) as [->|N2].
    + rewrite p_esc in H. destruct s as [|e s]; [discriminate H|]. cbn [length] in *.
      destruct (Z.eqb_spec e 117) as [->|Ne].
      2:{ destruct (zlook e escapes) as [c|] eqn:Z; [|discriminate H]. apply zlook_in in Z.
          assert (C : utf8 c = [c]) by (apply utf8_ascii; cbn [escapes In] in Z; repeat (destruct Z as [Z|Z]; [injection Z as <- <-; lia|]); contradiction).
          rewrite <- C in H. apply (ST c [92; e] s v r); [lia|exact H|]. intros u u' _ R. exists [92; e]. split.
          - apply repaired_ascii; [|exact R]. repeat constructor; try lia; cbn [escapes In] in Z;
              repeat (destruct Z as [Z|Z]; [injection Z as <- <-; lia|]); contradiction.
          - apply jc_short. cbn [escapes In] in Z |- *. intuition congruence. }
      destruct s as [|h1 [|h2 [|h3 [|h4 s]]]]; try discriminate H. cbn [length] in *.
      destruct (hex4 h1 h2 h3 h4) as [c|] eqn:X; [|discriminate H]. apply hex4_back in X. destruct X as (X & C & XA).
      destruct (in_range 55296 57343 c) eqn:SU.
      2:{ assert (Sc : scalar c) by (split; [lia|intro; rewrite in_range_true in SU by lia; discriminate SU]).
          apply (ST c [92; 117; h1; h2; h3; h4] s v r); [lia|exact H|]. intros u u' _ R. exists [92; 117; h1; h2; h3; h4]. split.
          - apply repaired_ascii; [|exact R]. constructor; [lia|]. constructor; [lia|exact XA].
          - exact (jc_u c [h1; h2; h3; h4] Sc X). }
      apply in_range_spec in SU.
      assert (Half : pre (utf8 65533) (p_chars s) = Some (v, r) -> exists u u', 92 :: 117 :: h1 :: h2 :: h3 :: h4 :: s = u ++ 34 :: r /\ repaired u u' /\ jchars v u').
      { intros H'. apply (ST 65533 [92; 117; h1; h2; h3; h4] s v r); [lia|exact H'|]. intros u u' _ R.
        exists (92 :: 117 :: [102; 102; 102; 100]). split; [|exact half_char]. exact (rp_half c [h1; h2; h3; h4] u u' ltac:(lia) X R). }
      destruct s as [|x1 [|x2 [|g1 [|g2 [|g3 [|g4 s]]]]]]; try (apply Half; exact H).
      destruct (Z.eqb_spec x1 92) as [->|X1]; [|cbn [andb] in H; apply Half; exact H].
      destruct (Z.eqb_spec x2 117) as [->|X2]; [|rewrite andb_false_r in H; apply Half; exact H]. cbn [andb] in H.
      destruct (hex4 g1 g2 g3 g4) as [c2|] eqn:Y; [|discriminate H]. apply hex4_back in Y. destruct Y as (Y & C2 & YA).
      destruct (in_range 55296 56319 c && in_range 56320 57343 c2) eqn:P; [|apply Half; exact H].
      apply andb_prop in P. destruct P as [P1 P2]. apply in_range_spec in P1, P2.
      apply (ST _ [92; 117; h1; h2; h3; h4; 92; 117; g1; g2; g3; g4] s v r) in H.
      * exact H.
      * cbn [length] in *; lia.
      * intros u u' _ R. exists [92; 117; h1; h2; h3; h4; 92; 117; g1; g2; g3; g4]. split.
        -- apply repaired_ascii; [|exact R]. change [92; 117; h1; h2; h3; h4; 92; 117; g1; g2; g3; g4] with ([92; 117] ++ [h1; h2; h3; h4] ++ [92; 117] ++ [g1; g2; g3; g4]).
           rewrite !Forall_app. repeat split; try assumption; repeat constructor; lia.
        -- replace ((c - 55296) * 1024 + (c2 - 56320) + 65536) with (65536 + (c - 55296) * 1024 + (c2 - 56320)) by lia.
           exact (jc_pair c c2 [h1; h2; h3; h4] [g1; g2; g3; g4] ltac:(lia) ltac:(lia) X Y).
    + destruct (Z.ltb_spec b 32) as [B'|B'].
      { exfalso. cbn [p_chars] in H. rewrite (proj2 (Z.eqb_neq b 34) N1), (proj2 (Z.eqb_neq b 92) N2), (proj2 (Z.ltb_lt b 32) B') in H. discriminate H. }
      rewrite p_plain in H by lia. assert (C : utf8 b = [b]) by (apply utf8_ascii; lia). rewrite <- C in H.
      apply (ST b [b] s v r); [lia|exact H|]. intros u u' _ R. exists [b]. split.
      * apply repaired_ascii; [repeat constructor; lia|exact R].
      * rewrite <- C. apply jc_plain; [unfold scalar; lia|lia..].
  - rewrite p_high in H by lia. destruct (rune_more (b :: s)) as [k|] eqn:R.
    + destruct (rune_some b s k B R) as (c & q & Sc & C & E & LE).
      assert (Z : pre (utf8 c) (p_chars q) = Some (v, r)).
      { destruct (rune_fit _ _ _ R) as [-> |[-> | ->]];
          (destruct (utf8 c) as [|u1 [|u2 [|u3 [|u4 [|u5 u]]]]]; try discriminate LE); cbn [app] in E; injection E as -> ->; exact H. }
      assert (LQ : (length q <= n)%nat).
      { assert (length (b :: s) = length (utf8 c ++ q)) by now rewrite E. rewrite app_length, LE in H0. cbn [length] in H0. lia. }
      rewrite E. apply (ST c (utf8 c) q v r LQ Z). intros u u' _ Ru. exists (utf8 c). split; [now apply rp_char|]. apply jc_plain; [exact Sc|lia..].
    + apply (ST 65533 [b] s v r); [lia| |].
      * exact H.
      * intros u u' E Ru. exists (utf8 65533). split; [|exact bad_char]. apply rp_byte; [|exact Ru]. intro G.
        apply (rune_none b s B R). rewrite E. exact (begins_more _ (34 :: r) G).
Qed.

Lemma p_string_sound : forall s v r, p_chars s = Some (v, r) ->
  exists u u', 34 :: s = u ++ r /\ repaired u u' /\ jstring v u'.
Proof.
  intros s v r H. destruct (p_chars_sound _ _ _ H) as (u & u' & -> & R & J). exists (34 :: u ++ [34]), (34 :: u' ++ [34]).
  split; [cbn [app]; now rewrite <- app_assoc|]. split; [|exists u'; split; [exact J|reflexivity]].
  apply repaired_cons; [lia|]. apply repaired_app; [exact R|cbn [hd]; lia|apply repaired_self; repeat constructor; lia].
Qed.

(** ** Numbers *)
Lemma span_dig_sound : forall s a b, span_dig s = (a, b) -> s = a ++ b /\ Forall (fun c => 48 <= c <= 57) a.
Proof.
  induction s as [|c s IH]; intros a b H; cbn [span_dig] in H; [injection H as <- <-; split; constructor|].
  destruct (is_dig c) eqn:D; [|injection H as <- <-; split; constructor].
  destruct (span_dig s) as [x y]. injection H as <- <-. destruct (IH _ _ eq_refl) as (-> & F). split; [reflexivity|].
  constructor; [now apply is_dig_spec|exact F].
Qed.
Lemma p_exp_sound : forall s t r, p_exp s = Some (t, r) -> s = t ++ r /\
  (t = [] \/ exists x g d, In x [101; 69] /\ In g [[]; [43]; [45]] /\ digits d /\ t = x :: g ++ d).
Proof.
  intros s t r H. split; [exact (p_exp_rest s t r H)|]. destruct s as [|c s]; [injection H as <- <-; now left|]. cbn [p_exp] in H.
  destruct ((c =? 101) || (c =? 69)) eqn:C; [|injection H as <- <-; now left]. right.
  assert (Ic : In c [101; 69]) by (cbn [In]; lia).
  destruct s as [|y s]; [discriminate H|]. destruct ((y =? 43) || (y =? 45)) eqn:Y.
  - destruct (span_dig s) as [d r2] eqn:E. destruct d as [|d1 d]; [discriminate H|]. injection H as <- <-.
    exists c, [y], (d1 :: d). split; [exact Ic|]. split; [|split; [split; [discriminate|exact (proj2 (span_dig_sound _ _ _ E))]|reflexivity]].
    assert (Q : y = 43 \/ y = 45) by lia. destruct Q as [-> | ->]; cbn [In]; auto.
  - destruct (span_dig (y :: s)) as [d r2] eqn:E. destruct d as [|d1 d]; [discriminate H|]. injection H as <- <-.
    exists c, [], (d1 :: d). split; [exact Ic|]. split; [cbn [In]; auto|split; [split; [discriminate|exact (proj2 (span_dig_sound _ _ _ E))]|reflexivity]].
Qed.
Lemma p_frac_sound : forall s t r, p_frac s = Some (t, r) -> s = t ++ r /\
  exists f e, t = f ++ e /\ (f = [] \/ exists d, digits d /\ f = 46 :: d) /\
    (e = [] \/ exists x g d, In x [101; 69] /\ In g [[]; [43]; [45]] /\ digits d /\ e = x :: g ++ d).
Proof.
  intros s t r H. split; [exact (p_frac_rest s t r H)|]. destruct s as [|c s].
  { exists [], t. split; [reflexivity|]. split; [now left|]. exact (proj2 (p_exp_sound [] t r H)). }
  unfold p_frac in H. destruct (Z.eqb_spec c 46) as [->|C].
  - destruct (span_dig s) as [d r1] eqn:E. destruct d as [|d1 d]; [discriminate H|]. destruct (pre_some _ _ _ _ H) as (v' & Q & ->).
    exists (46 :: d1 :: d), v'. split; [reflexivity|]. split; [right; exists (d1 :: d); split; [split; [discriminate|exact (proj2 (span_dig_sound _ _ _ E))]|reflexivity]|].
    exact (proj2 (p_exp_sound _ _ _ Q)).
  - exists [], t. split; [reflexivity|]. split; [now left|]. exact (proj2 (p_exp_sound _ _ _ H)).
Qed.
Lemma p_num_sound : forall s t r, p_num s = Some (t, r) -> s = t ++ r /\ jnumber t.
Proof.
  assert (Q : forall sg (s t r : bytes), sg = [] \/ sg = [45] ->
    match s with
    | c :: r1 => if c =? 48 then pre (sg ++ [c]) (p_frac r1)
                 else if is_dig c then let '(d, r2) := span_dig r1 in pre (sg ++ c :: d) (p_frac r2) else None
    | [] => None end = Some (t, r) -> sg ++ s = t ++ r /\ jnumber t).
  { intros sg s t r G H. destruct s as [|c s]; [discriminate H|]. destruct (Z.eqb_spec c 48) as [->|C].
    - destruct (pre_some _ _ _ _ H) as (v' & E & ->). destruct (p_frac_sound _ _ _ E) as (-> & f & e & -> & F & X).
      split; [now rewrite <- !app_assoc|]. exists sg, [48], f, e. split; [now rewrite <- !app_assoc|]. auto.
    - destruct (is_dig c) eqn:D; [|discriminate H]. apply is_dig_spec in D. destruct (span_dig s) as [d r2] eqn:E.
      destruct (pre_some _ _ _ _ H) as (v' & P & ->). destruct (span_dig_sound _ _ _ E) as (-> & Fd).
      destruct (p_frac_sound _ _ _ P) as (-> & f & e & -> & F & X).
      split; [rewrite <- !app_assoc; cbn [app]; now rewrite <- ?app_assoc|]. exists sg, (c :: d), f, e. split; [now rewrite <- !app_assoc|].
      split; [exact G|]. split; [|auto]. right. split; [split; [discriminate|constructor; [exact D|exact Fd]]|exact C]. }
  intros s t r H. unfold p_num in H. destruct s as [|c s]; [discriminate H|].
  destruct (Z.eqb_spec c 45) as [->|N]; [exact (Q [45] s t r (or_intror eq_refl) H)|]. exact (Q [] (c :: s) t r (or_introl eq_refl) H).
Qed.

(** ** Values *)
Lemma skip_ws_parts : forall s, exists w, ws w /\ s = w ++ skip_ws s.
Proof.
  induction s as [|c s (w & W & E)]; [exists []; split; constructor|]. cbn [skip_ws]. destruct (is_ws c) eqn:C.
  - exists (c :: w). split; [constructor; [now apply is_ws_In|exact W]|]. cbn [app]. now rewrite <- E.
  - exists []. split; [constructor|reflexivity].
Qed.
Lemma prefix_parts : forall p s, has_prefix s p = true -> s = p ++ skipn (length p) s.
Proof.
  induction p as [|a p IH]; intros s H; [reflexivity|]. destruct s as [|x s]; [discriminate H|]. cbn [has_prefix] in H.
  apply andb_prop in H. destruct H as [H1 H2]. apply Z.eqb_eq in H1. subst x. cbn [length skipn app]. f_equal. now apply IH.
Qed.
Lemma digits_ascii : forall d, digits d -> Forall (fun b => 0 <= b < 128) d.
Proof. intros d (_ & F). revert F. apply Forall_impl. intros; lia. Qed.
Lemma number_ascii : forall t, jnumber t -> Forall (fun b => 0 <= b < 128) t.
Proof.
  intros t (m & i & f & e & -> & M & I & F & E). rewrite !Forall_app. repeat split.
  - destruct M as [-> | ->]; repeat constructor; lia.
  - destruct I as [-> |(D & _)]; [repeat constructor; lia|now apply digits_ascii].
  - destruct F as [-> |(d & D & ->)]; [constructor|constructor; [lia|now apply digits_ascii]].
  - destruct E as [-> |(x & g & d & X & G & D & ->)]; [constructor|]. constructor; [cbn [In] in X; lia|]. apply Forall_app. split; [|now apply digits_ascii].
    cbn [In] in G. destruct G as [<- |[<- |[<- |[]]]]; repeat constructor; lia.
Qed.

Definition room (d : Z) : nat := Z.to_nat (10000 - d).
Lemma room_S : forall d, 0 <= d -> (max_depth <=? d) = false -> room d = S (room (d + 1)).
Proof. intros d H M. unfold room, max_depth in *. lia. Qed.
Lemma word_sound : forall n s v r, word s = JOk v r -> exists t, s = t ++ r /\ repaired t t /\ jtext n v t.
Proof.
  intros n s v r H. unfold word in H.
  destruct (has_prefix s (str "null")) eqn:E1.
  { injection H as <- <-. exists (str "null"). split; [exact (prefix_parts _ _ E1)|]. split; [apply repaired_self; repeat constructor; lia|constructor]. }
  destruct (has_prefix s (str "true")) eqn:E2.
  { injection H as <- <-. exists (str "true"). split; [exact (prefix_parts _ _ E2)|]. split; [apply repaired_self; repeat constructor; lia|constructor]. }
  destruct (has_prefix s (str "false")) eqn:E3.
  { injection H as <- <-. exists (str "false"). split; [exact (prefix_parts _ _ E3)|]. split; [apply repaired_self; repeat constructor; lia|constructor]. }
  destruct (p_num s) as [[t r1]|] eqn:P; [|discriminate H]. injection H as <- <-. destruct (p_num_sound _ _ _ P) as (E & J).
  exists t. split; [exact E|]. split; [apply repaired_self, number_ascii, J|now constructor].
Qed.

Lemma ws_hd : forall w x, ws w -> hd 0 x < 128 -> hd 0 (w ++ x) < 128.
Proof. intros w x W X. destruct W as [|c w C W]; [exact X|]. cbn [app hd]. cbn [In] in C. lia. Qed.
Lemma hd_cons : forall c (r : bytes), c < 128 -> hd 0 (c :: r) < 128.
Proof. intros. assumption. Qed.

Lemma values_sound : forall n,
  (forall d s v r, 0 <= d -> p_val n d s = JOk v r -> exists w t t', s = w ++ t ++ r /\ ws w /\ repaired t t' /\ jtext (room d) v t') /\
  (forall d s l r, 0 <= d -> p_members n d s = JOk l r -> l <> [] /\ exists t t', s = t ++ 125 :: r /\ repaired t t' /\ jmembers (room d) l t') /\
  (forall d s l r, 0 <= d -> p_elems n d s = JOk l r -> l <> [] /\ exists t t', s = t ++ 93 :: r /\ repaired t t' /\ jelems (room d) l t').
Proof.
  induction n as [|n (IHv & IHm & IHe)]; [repeat split; intros; discriminate|]. split; [|split].
  - intros d s v r D H. rewrite p_val_eq in H. destruct (skip_ws_parts s) as (w & W & E). rewrite E.
    assert (Goal : exists t t', skip_ws s = t ++ r /\ repaired t t' /\ jtext (room d) v t').
    2:{ destruct Goal as (t & t' & -> & R & J). exists w, t, t'. auto. }
    clear E W w. destruct (skip_ws s) as [|c q]; [discriminate H|]. clear s.
    destruct (Z.eqb_spec c 123) as [->|C1].
    { destruct (max_depth <=? d) eqn:M; [discriminate H|]. destruct (skip_ws_parts q) as (w & W & E).
      destruct (skip_ws q) as [|x r1] eqn:X; [discriminate H|]. rewrite (room_S d D M). destruct (Z.eqb_spec x 125) as [->|X1].
      - injection H as <- <-. exists (123 :: w ++ [125]), (123 :: w ++ [125]). split; [rewrite E; cbn [app]; now rewrite <- app_assoc|].
        split; [|now constructor]. apply repaired_cons; [lia|]. apply repaired_app; [now apply ws_repaired|cbn; lia|apply repaired_self; repeat constructor; lia].
      - destruct (p_members n (d + 1) q) as [l r2| |] eqn:P; try discriminate H. injection H as <- <-.
        destruct (IHm (d + 1) q l r2 ltac:(lia) P) as (NE & t & t' & -> & R & J). exists (123 :: t ++ [125]), (123 :: t' ++ [125]).
        split; [cbn [app]; now rewrite <- app_assoc|]. split; [|now constructor].
        apply repaired_cons; [lia|]. apply repaired_app; [exact R|cbn; lia|apply repaired_self; repeat constructor; lia]. }
    destruct (Z.eqb_spec c 91) as [->|C2].
    { destruct (max_depth <=? d) eqn:M; [discriminate H|]. destruct (skip_ws_parts q) as (w & W & E).
      destruct (skip_ws q) as [|x r1] eqn:X; [discriminate H|]. rewrite (room_S d D M). destruct (Z.eqb_spec x 93) as [->|X1].
      - injection H as <- <-. exists (91 :: w ++ [93]), (91 :: w ++ [93]). split; [rewrite E; cbn [app]; now rewrite <- app_assoc|].
        split; [|now constructor]. apply repaired_cons; [lia|]. apply repaired_app; [now apply ws_repaired|cbn; lia|apply repaired_self; repeat constructor; lia].
      - destruct (p_elems n (d + 1) q) as [l r2| |] eqn:P; try discriminate H. injection H as <- <-.
        destruct (IHe (d + 1) q l r2 ltac:(lia) P) as (NE & t & t' & -> & R & J). exists (91 :: t ++ [93]), (91 :: t' ++ [93]).
        split; [cbn [app]; now rewrite <- app_assoc|]. split; [|now constructor].
        apply repaired_cons; [lia|]. apply repaired_app; [exact R|cbn; lia|apply repaired_self; repeat constructor; lia]. }
    destruct (Z.eqb_spec c 34) as [->|C3].
    { destruct (p_chars q) as [[t r1]|] eqn:P; [|discriminate H]. injection H as <- <-.
      destruct (p_string_sound _ _ _ P) as (u & u' & E & R & J). exists u, u'. split; [exact E|]. split; [exact R|now constructor]. }
    destruct (word_sound (room d) _ _ _ H) as (t & E & R & J). exists t, t. auto.
  - intros d s l r D H. cbn [p_members] in H. destruct (skip_ws_parts s) as (w1 & W1 & E1).
    destruct (skip_ws s) as [|c q]; [discriminate H|]. destruct (Z.eqb_spec c 34) as [->|C1]; [|discriminate H].
    destruct (p_chars q) as [[k r1]|] eqn:P; [|discriminate H]. destruct (p_string_sound _ _ _ P) as (u & u' & EU & RU & JU). rewrite EU in E1. clear EU P q.
    destruct (skip_ws_parts r1) as (w2 & W2 & E2). destruct (skip_ws r1) as [|x r2]; [discriminate H|].
    destruct (Z.eqb_spec x 58) as [->|X]; [|discriminate H].
    destruct (p_val n d r2) as [v r3| |] eqn:V; try discriminate H. destruct (IHv d r2 v r3 D V) as (w3 & t & t' & E3 & W3 & RT & JT). clear V.
    destruct (skip_ws_parts r3) as (w4 & W4 & E4). destruct (skip_ws r3) as [|y r4]; [discriminate H|].
    assert (Hd : forall z : bytes, z <> [] -> hd 0 z < 128 -> hd 0 (w4 ++ z) < 128) by (intros; now apply ws_hd).
    destruct (Z.eqb_spec y 44) as [->|Y].
    + destruct (p_members n d r4) as [l' r5| |] eqn:M; try discriminate H. injection H as <- <-.
      destruct (IHm d r4 l' r5 D M) as (NE & tm & tm' & E5 & RM & JM). split; [discriminate|].
      exists (w1 ++ u ++ w2 ++ 58 :: w3 ++ t ++ w4 ++ 44 :: tm), (w1 ++ u' ++ w2 ++ 58 :: w3 ++ t' ++ w4 ++ 44 :: tm').
      split; [rewrite E1, E2, E3, E4, E5; repeat (rewrite <- ?app_assoc; cbn [app]); reflexivity|].
      split; [|apply jm_more; assumption].
      assert (Q4 : repaired (w4 ++ 44 :: tm) (w4 ++ 44 :: tm')).
      { apply repaired_app; [now apply ws_repaired|cbn; lia|apply repaired_cons; [lia|exact RM]]. }
      assert (Q3 : repaired (t ++ w4 ++ 44 :: tm) (t' ++ w4 ++ 44 :: tm')).
      { apply repaired_app; [exact RT|apply ws_hd; [exact W4|cbn; lia]|exact Q4]. }
      assert (Q2 : repaired (w2 ++ 58 :: w3 ++ t ++ w4 ++ 44 :: tm) (w2 ++ 58 :: w3 ++ t' ++ w4 ++ 44 :: tm')).
      { apply repaired_app; [now apply ws_repaired|cbn; lia|]. apply repaired_cons; [lia|]. apply repaired_ascii; [|exact Q3].
        revert W3. apply Forall_impl. cbn [In]. intros; lia. }
      apply repaired_ascii; [revert W1; apply Forall_impl; cbn [In]; intros; lia|].
      apply repaired_app; [exact RU|apply ws_hd; [exact W2|cbn; lia]|exact Q2].
    + destruct (Z.eqb_spec y 125) as [->|Y2]; [|discriminate H]. injection H as <- <-. split; [discriminate|].
      exists (w1 ++ u ++ w2 ++ 58 :: w3 ++ t ++ w4), (w1 ++ u' ++ w2 ++ 58 :: w3 ++ t' ++ w4).
      split; [rewrite E1, E2, E3, E4; repeat (rewrite <- ?app_assoc; cbn [app]); reflexivity|].
      split; [|apply jm_one; assumption].
      assert (Q3 : repaired (t ++ w4) (t' ++ w4)).
      { apply repaired_app; [exact RT| |now apply ws_repaired]. pose proof (ws_hd w4 [] W4 ltac:(cbn; lia)) as Q. now rewrite app_nil_r in Q. }
      assert (Q2 : repaired (w2 ++ 58 :: w3 ++ t ++ w4) (w2 ++ 58 :: w3 ++ t' ++ w4)).
      { apply repaired_app; [now apply ws_repaired|cbn; lia|]. apply repaired_cons; [lia|]. apply repaired_ascii; [|exact Q3].
        revert W3. apply Forall_impl. cbn [In]. intros; lia. }
      apply repaired_ascii; [revert W1; apply Forall_impl; cbn [In]; intros; lia|].
      apply repaired_app; [exact RU|apply ws_hd; [exact W2|cbn; lia]|exact Q2].
  - intros d s l r D H. cbn [p_elems] in H.
    destruct (p_val n d s) as [v r3| |] eqn:V; try discriminate H. destruct (IHv d s v r3 D V) as (w3 & t & t' & E3 & W3 & RT & JT). clear V.
    destruct (skip_ws_parts r3) as (w4 & W4 & E4). destruct (skip_ws r3) as [|y r4]; [discriminate H|].
    destruct (Z.eqb_spec y 44) as [->|Y].
    + destruct (p_elems n d r4) as [l' r5| |] eqn:M; try discriminate H. injection H as <- <-.
      destruct (IHe d r4 l' r5 D M) as (NE & tm & tm' & E5 & RM & JM). split; [discriminate|].
      exists (w3 ++ t ++ w4 ++ 44 :: tm), (w3 ++ t' ++ w4 ++ 44 :: tm').
      split; [rewrite E3, E4, E5; repeat (rewrite <- ?app_assoc; cbn [app]); reflexivity|].
      split; [|apply je_more; assumption].
      apply repaired_ascii; [revert W3; apply Forall_impl; cbn [In]; intros; lia|].
      apply repaired_app; [exact RT|apply ws_hd; [exact W4|cbn; lia]|].
      apply repaired_app; [now apply ws_repaired|cbn; lia|apply repaired_cons; [lia|exact RM]].
    + destruct (Z.eqb_spec y 93) as [->|Y2]; [|discriminate H]. injection H as <- <-. split; [discriminate|].
      exists (w3 ++ t ++ w4), (w3 ++ t' ++ w4).
      split; [rewrite E3, E4; repeat (rewrite <- ?app_assoc; cbn [app]); reflexivity|].
      split; [|apply je_one; assumption].
      apply repaired_ascii; [revert W3; apply Forall_impl; cbn [In]; intros; lia|].
      apply repaired_app; [exact RT| |now apply ws_repaired]. pose proof (ws_hd w4 [] W4 ltac:(cbn; lia)) as Q. now rewrite app_nil_r in Q.
Qed.

Theorem document_sound : forall s v r, parse_json s = JOk v r -> r = [] /\
  exists n s', Z.of_nat n <= 10000 /\ repaired s s' /\ jdocument n v s'.
Proof.
  intros s v r H. unfold parse_json in H. destruct (p_val (2 * length s + 2) 0 s) as [v0 r0| |] eqn:V; try discriminate H.
  destruct (skip_ws_parts r0) as (w & W & E). destruct (skip_ws r0); [|discriminate H]. injection H as <- <-. split; [reflexivity|].
  destruct (proj1 (values_sound _) 0 s v0 r0 ltac:(lia) V) as (w1 & t & t' & -> & W1 & R & J). rewrite app_nil_r in E. subst r0.
  exists (room 0), (w1 ++ t' ++ w). split; [unfold room; lia|]. split.
  - apply repaired_ascii; [revert W1; apply Forall_impl; cbn [In]; intros; lia|].
    apply repaired_app; [exact R| |now apply ws_repaired]. pose proof (ws_hd w [] W ltac:(cbn; lia)) as Q. now rewrite app_nil_r in Q.
  - exists w1, t', w. auto.
Qed.
