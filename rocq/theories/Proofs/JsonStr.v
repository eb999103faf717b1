(** Strings of JSON texts: reading what the grammar allows, writing what it
    allows, and reading on when more follows. *)
From Coq Require Import List ZArith Lia Bool String.
From Verif.Model Require Import Base Str Der Json.
From Verif.Spec Require Import JsonSpec.
Import ListNotations.
Open Scope Z_scope.

Lemma in_range_spec : forall a b x, in_range a b x = true <-> a <= x <= b.
Proof. intros. unfold in_range. rewrite andb_true_iff, !Z.leb_le. reflexivity. Qed.
Lemma in_range_false : forall a b x, x < a \/ b < x -> in_range a b x = false.
Proof. intros. destruct (in_range a b x) eqn:E; [apply in_range_spec in E; lia|reflexivity]. Qed.
Lemma in_range_true : forall a b x, a <= x <= b -> in_range a b x = true.
Proof. intros. apply in_range_spec; assumption. Qed.

Lemma utf8_is_rune : forall c, utf8_rune c = utf8 c.
Proof. reflexivity. Qed.

(** ** The encoding of a character *)
Lemma utf8_shape : forall c, scalar c -> 128 <= c -> forall s,
  (exists b x, utf8 c = [b; x] /\ 194 <= b <= 223 /\ rune_more (utf8 c ++ s) = Some 1%nat) \/
  (exists b x y, utf8 c = [b; x; y] /\ 224 <= b <= 239 /\ rune_more (utf8 c ++ s) = Some 2%nat) \/
  (exists b x y z, utf8 c = [b; x; y; z] /\ 240 <= b <= 244 /\ rune_more (utf8 c ++ s) = Some 3%nat).
Proof.
  intros c (H1 & H2) H3 s. unfold utf8.
  rewrite (proj2 (Z.ltb_ge c 128)) by lia.
  destruct (c <? 2048) eqn:E1.
  { apply Z.ltb_lt in E1. left. exists (192 + c / 64), (128 + c mod 64). split; [reflexivity|].
    assert (A : 2 <= c / 64 <= 31) by (Z.div_mod_to_equations; lia).
    assert (B : 0 <= c mod 64 <= 63) by (Z.div_mod_to_equations; lia).
    split; [lia|]. cbn [app rune_more]. rewrite !in_range_true by lia. reflexivity. }
  apply Z.ltb_ge in E1. destruct (c <? 65536) eqn:E2.
  { apply Z.ltb_lt in E2. right; left. exists (224 + c / 4096), (128 + c / 64 mod 64), (128 + c mod 64). split; [reflexivity|].
    assert (A : 0 <= c / 4096 <= 15) by (Z.div_mod_to_equations; lia).
    assert (B : 0 <= c mod 64 <= 63) by (Z.div_mod_to_equations; lia).
    assert (D : 0 <= c / 64 mod 64 <= 63) by (Z.div_mod_to_equations; lia).
    assert (L : c / 4096 = 0 -> 32 <= c / 64 mod 64) by (clear - E1 E2; Z.div_mod_to_equations; lia).
    assert (M : c / 4096 = 13 -> c / 64 mod 64 <= 31).
    { intro Q. assert (Q1 : 53248 <= c < 57344) by (clear - Q; Z.div_mod_to_equations; lia). assert (Q2 : c < 55296) by lia. clear - Q1 Q2. Z.div_mod_to_equations; lia. }
    split; [lia|]. cbn [app rune_more].
    rewrite (in_range_false 194 223) by lia. rewrite (in_range_true 224 239) by lia.
    rewrite (in_range_true 128 191 (128 + c mod 64)) by lia. rewrite in_range_true; [reflexivity|].
    clear - A B D L M. destruct (Z.eqb_spec (224 + c / 4096) 224) as [F|F]; destruct (Z.eqb_spec (224 + c / 4096) 237) as [G|G];
      try (assert (c / 4096 = 0) by lia); try (assert (c / 4096 = 13) by lia); lia. }
  apply Z.ltb_ge in E2. right; right.
  exists (240 + c / 262144), (128 + c / 4096 mod 64), (128 + c / 64 mod 64), (128 + c mod 64). split; [reflexivity|].
  assert (A : 0 <= c / 262144 <= 4) by (Z.div_mod_to_equations; lia).
  assert (B : 0 <= c mod 64 <= 63) by (Z.div_mod_to_equations; lia).
  assert (D : 0 <= c / 64 mod 64 <= 63) by (Z.div_mod_to_equations; lia).
  assert (F : 0 <= c / 4096 mod 64 <= 63) by (Z.div_mod_to_equations; lia).
  assert (L : c / 262144 = 0 -> 16 <= c / 4096 mod 64) by (clear - E2; Z.div_mod_to_equations; lia).
  assert (M : c / 262144 = 4 -> c / 4096 mod 64 <= 15) by (clear - H1; Z.div_mod_to_equations; lia).
  split; [lia|]. cbn [app rune_more].
  rewrite (in_range_false 194 223) by lia. rewrite (in_range_false 224 239) by lia. rewrite (in_range_true 240 244) by lia.
  rewrite (in_range_true 128 191 (128 + c mod 64)) by lia. rewrite (in_range_true 128 191 (128 + c / 64 mod 64)) by lia.
  rewrite in_range_true; [reflexivity|].
  clear - A B D F L M. destruct (Z.eqb_spec (240 + c / 262144) 240) as [G|G]; destruct (Z.eqb_spec (240 + c / 262144) 244) as [J|J];
    try (assert (c / 262144 = 0) by lia); try (assert (c / 262144 = 4) by lia); lia.
Qed.

(** ** Reading what the grammar allows *)
Lemma hexv_digit : forall n c, hex_digit n c -> hexv c = Some n.
Proof.
  intros n c [(A & ->)|(A & [-> | ->])]; unfold hexv.
  - rewrite in_range_true by lia. f_equal; lia.
  - rewrite in_range_false by lia. rewrite in_range_true by lia. f_equal; lia.
  - rewrite in_range_false by lia. rewrite in_range_false by lia. rewrite in_range_true by lia. f_equal; lia.
Qed.
Lemma hex4_four : forall n s, hex_four n s -> exists w x y z, s = [w; x; y; z] /\ hex4 w x y z = Some n.
Proof.
  intros n s (a & b & c & d & w & x & y & z & -> & A & B & C & D & ->). exists w, x, y, z. split; [reflexivity|].
  unfold hex4. rewrite (hexv_digit _ _ A), (hexv_digit _ _ B), (hexv_digit _ _ C), (hexv_digit _ _ D). reflexivity.
Qed.

Lemma p_esc : forall r, p_chars (92 :: r) =
  match r with
  | [] => None
  | e :: r1 =>
      if e =? 117 then
        match r1 with
        | h1 :: h2 :: h3 :: h4 :: r2 =>
            match hex4 h1 h2 h3 h4 with
            | None => None
            | Some c =>
                if in_range 55296 57343 c then
                  match r2 with
                  | x1 :: x2 :: g1 :: g2 :: g3 :: g4 :: r3 =>
                      if (x1 =? 92) && (x2 =? 117) then
                        match hex4 g1 g2 g3 g4 with
                        | Some c2 =>
                            if in_range 55296 56319 c && in_range 56320 57343 c2
                            then pre (utf8 ((c - 55296) * 1024 + (c2 - 56320) + 65536)) (p_chars r3)
                            else pre (utf8 65533) (p_chars r2)
                        | None => None
                        end
                      else pre (utf8 65533) (p_chars r2)
                  | _ => pre (utf8 65533) (p_chars r2)
                  end
                else pre (utf8 c) (p_chars r2)
            end
        | _ => None
        end
      else match zlook e escapes with
           | Some c => pre [c] (p_chars r1)
           | None => None
           end
  end.
Proof. reflexivity. Qed.
Lemma p_plain : forall b r, 32 <= b < 128 -> b <> 34 -> b <> 92 -> p_chars (b :: r) = pre [b] (p_chars r).
Proof.
  intros b r H1 H2 H3. cbn [p_chars]. rewrite (proj2 (Z.eqb_neq b 34)), (proj2 (Z.eqb_neq b 92)) by lia.
  rewrite (proj2 (Z.ltb_ge b 32)) by lia. rewrite (proj2 (Z.ltb_lt b 128)) by lia. reflexivity.
Qed.
Lemma p_u : forall w x y z r c, hex4 w x y z = Some c -> in_range 55296 57343 c = false ->
  p_chars (92 :: 117 :: w :: x :: y :: z :: r) = pre (utf8 c) (p_chars r).
Proof.
  intros w x y z r c H1 H2. rewrite p_esc. change (117 =? 117) with true. cbv iota. rewrite H1, H2. reflexivity.
Qed.
Lemma p_high : forall b r, 128 <= b -> p_chars (b :: r) =
  match rune_more (b :: r), r with
  | Some 1%nat, c :: r1 => pre [b; c] (p_chars r1)
  | Some 2%nat, c :: d :: r2 => pre [b; c; d] (p_chars r2)
  | Some 3%nat, c :: d :: e :: r3 => pre [b; c; d; e] (p_chars r3)
  | _, _ => pre (utf8 65533) (p_chars r)
  end.
Proof.
  intros b r H. cbn [p_chars]. rewrite (proj2 (Z.eqb_neq b 34)), (proj2 (Z.eqb_neq b 92)) by lia.
  rewrite (proj2 (Z.ltb_ge b 32)) by lia. rewrite (proj2 (Z.ltb_ge b 128)) by lia. reflexivity.
Qed.
Lemma p_char : forall c t, jchar c t -> forall s, p_chars (t ++ s) = pre (utf8 c) (p_chars s).
Proof.
  intros c t J s. destruct J as [c H H1 H2 H3|c e H|c h H H1|hi lo h l H1 H2 H3 H4].
  - destruct (Z.ltb_spec c 128) as [L|L].
    + unfold utf8. rewrite (proj2 (Z.ltb_lt c 128)) by lia. cbn [app]. apply p_plain; lia.
    + destruct (utf8_shape c H L s) as [(b & x & E & B & R)|[(b & x & y & E & B & R)|(b & x & y & z & E & B & R)]];
        rewrite E in *; cbn [app] in *; rewrite p_high by lia; rewrite R; reflexivity.
  - cbn [In] in H. repeat (destruct H as [H|H]; [injection H as <- <-; reflexivity|]). contradiction.
  - destruct (hex4_four _ _ H1) as (w & x & y & z & -> & E). cbn [app]. apply p_u; [exact E|].
    destruct H as (_ & H). apply in_range_false. lia.
  - destruct (hex4_four _ _ H3) as (w & x & y & z & -> & E). destruct (hex4_four _ _ H4) as (w' & x' & y' & z' & -> & E').
    cbn [app]. rewrite p_esc. change (117 =? 117) with true. cbv iota. change ((92 =? 92) && (117 =? 117)) with true. cbv iota. rewrite E, E'.
    rewrite (in_range_true 55296 57343), (in_range_true 55296 56319), (in_range_true 56320 57343) by lia. cbn [andb].
    replace (65536 + (hi - 55296) * 1024 + (lo - 56320)) with ((hi - 55296) * 1024 + (lo - 56320) + 65536) by lia. reflexivity.
Qed.
Lemma p_chars_grammar : forall v t, jchars v t -> forall r, p_chars (t ++ 34 :: r) = Some (v, r).
Proof.
  intros v t J. induction J as [|c t v s C J IH]; intros r; [reflexivity|].
  rewrite <- app_assoc, (p_char c t C), IH. reflexivity.
Qed.

(** ** Writing *)
Lemma enc_byte_char : forall b, 0 <= b < 128 -> jchar b (enc_byte b).
Proof.
  intros b H. assert (SC : scalar b) by (split; lia).
  assert (U : utf8 b = [b]) by (unfold utf8; rewrite (proj2 (Z.ltb_lt b 128)) by lia; reflexivity).
  unfold enc_byte. destruct ((b =? 92) || (b =? 34)) eqn:E1.
  { apply orb_true_iff in E1. destruct E1 as [E|E]; apply Z.eqb_eq in E; subst; apply jc_short; cbn; tauto. }
  apply orb_false_iff in E1. destruct E1 as (N1 & N2). apply Z.eqb_neq in N1, N2.
  destruct (b =? 10) eqn:E2; [apply Z.eqb_eq in E2; subst; apply jc_short; cbn; tauto|].
  destruct (b =? 13) eqn:E3; [apply Z.eqb_eq in E3; subst; apply jc_short; cbn; tauto|].
  destruct (b =? 9) eqn:E4; [apply Z.eqb_eq in E4; subst; apply jc_short; cbn; tauto|].
  destruct ((b <? 32) || (b =? 60) || (b =? 62) || (b =? 38)) eqn:E5.
  - apply jc_u; [exact SC|]. exists 0, 0, (b / 16), (b mod 16), 48, 48, (hexc (b / 16)), (hexc (b mod 16)).
    assert (HX : forall n, 0 <= n <= 15 -> hex_digit n (hexc n)).
    { intros n N. unfold hexc. destruct (n <? 10) eqn:Q; [apply Z.ltb_lt in Q; left; lia|apply Z.ltb_ge in Q; right; lia]. }
    split; [reflexivity|]. split; [left; lia|]. split; [left; lia|].
    split; [apply HX; Z.div_mod_to_equations; lia|]. split; [apply HX; Z.div_mod_to_equations; lia|].
    Z.div_mod_to_equations; lia.
  - rewrite !orb_false_iff in E5. destruct E5 as (((E5 & _) & _) & _). apply Z.ltb_ge in E5.
    rewrite <- U. apply jc_plain; [exact SC|lia|exact N2|exact N1].
Qed.
Lemma line_sep_utf8 : forall c s d, scalar c -> line_sep (utf8 c ++ s) = Some d -> 128 <= c ->
  (c = 8232 /\ d = 168) \/ (c = 8233 /\ d = 169).
Proof.
  intros c s d H L H128. destruct (utf8_shape c H H128 s) as [(b & x & E & B & R)|[(b & x & y & E & B & R)|(b & x & y & z & E & B & R)]];
    rewrite E in L; cbn [app line_sep] in L.
  - destruct s as [|q s]; [discriminate|].
    rewrite (proj2 (Z.eqb_neq b 226)) in L by lia. discriminate.
  - destruct ((b =? 226) && (x =? 128) && ((y =? 168) || (y =? 169))) eqn:Q; [|discriminate]. injection L as <-.
    rewrite !andb_true_iff, orb_true_iff, !Z.eqb_eq in Q. destruct Q as ((Q1 & Q2) & Q3). subst b x.
    unfold utf8 in E. destruct (c <? 128) eqn:E0; [discriminate|]. destruct (c <? 2048) eqn:E1; [discriminate|].
    destruct (c <? 65536) eqn:E2; [|discriminate]. apply Z.ltb_lt in E2.
    pose proof (f_equal (fun l => nth 0 l 0) E) as A1. pose proof (f_equal (fun l => nth 1 l 0) E) as A2.
    pose proof (f_equal (fun l => nth 2 l 0) E) as A3. cbn [nth] in A1, A2, A3.
    destruct H as (H & _). assert (Z1 : c / 4096 = 2) by lia. assert (Z2 : (c / 64) mod 64 = 0) by lia.
    assert (Z3 : c mod 64 = y - 128) by lia. clear - Z1 Z2 Z3 Q3.
    destruct Q3 as [-> | ->]; [left|right]; (split; [|reflexivity]); Z.div_mod_to_equations; lia.
  - rewrite (proj2 (Z.eqb_neq b 226)) in L by lia. discriminate.
Qed.
Lemma enc_body_0 : forall s, enc_body 0 false s = enc_body 0 true s.
Proof. intros [|b s]; reflexivity. Qed.
Lemma enc_body_grammar : forall s, unicode s -> jchars s (enc_body 0 true s).
Proof.
  intros s U. induction U as [|c s H U IH]; [apply js_nil|].
  destruct (Z.ltb_spec c 128) as [L|L].
  - assert (E : utf8 c = [c]) by (unfold utf8; rewrite (proj2 (Z.ltb_lt c 128)) by lia; reflexivity).
    assert (X : enc_body 0 true (utf8 c ++ s) = enc_byte c ++ enc_body 0 true s).
    { rewrite E. cbn [app enc_body]. rewrite (proj2 (Z.ltb_lt c 128)) by lia. reflexivity. }
    rewrite X. apply js_cons; [|exact IH]. apply enc_byte_char. destruct H; lia.
  - destruct (line_sep (utf8 c ++ s)) as [d|] eqn:LS.
    + pose proof (line_sep_utf8 c s d H LS L) as Q.
      assert (X : enc_body 0 true (utf8 c ++ s) = (92 :: 117 :: [50; 48; 50; hexc (d mod 16)]) ++ enc_body 0 true s).
      { rewrite <- (enc_body_0 s). destruct Q as [(-> & ->)|(-> & ->)]; reflexivity. }
      rewrite X. apply js_cons; [|exact IH]. apply jc_u; [exact H|].
      destruct Q as [(-> & ->)|(-> & ->)]; [exists 2, 0, 2, 8|exists 2, 0, 2, 9]; do 4 eexists;
        (split; [reflexivity|]); repeat split; try (left; cbn; lia).
    + assert (X : enc_body 0 true (utf8 c ++ s) = utf8 c ++ enc_body 0 true s).
      { destruct (utf8_shape c H L s) as [(b & x & E & B & R)|[(b & x & y & E & B & R)|(b & x & y & z & E & B & R)]];
          rewrite E in *; cbn [app] in *; cbn [enc_body]; rewrite (proj2 (Z.ltb_ge b 128)) by lia; rewrite R, LS; reflexivity. }
      rewrite X. apply js_cons; [|exact IH]. apply jc_plain; [exact H|lia..].
Qed.
Lemma enc_str_grammar : forall s, unicode s -> jstring s (enc_str s).
Proof. intros s U. exists (enc_body 0 true s). split; [apply enc_body_grammar, U|reflexivity]. Qed.

(** ** Reading on *)
Lemma pre_some : forall p x v r, pre p x = Some (v, r) -> exists v', x = Some (v', r) /\ v = p ++ v'.
Proof. intros p [[a b]|] v r H; [|discriminate]. injection H as <- <-. exists a. split; reflexivity. Qed.
Lemma p_chars_high : forall s, Forall (fun b => 128 <= b) s -> p_chars s = None.
Proof.
  intros s. remember (length s) as n eqn:N. assert (L : (length s <= n)%nat) by lia. clear N. revert s L.
  induction n as [|n IH]; intros s L F.
  { destruct s; [reflexivity|cbn [length] in L; lia]. }
  destruct s as [|b r]; [reflexivity|]. cbn [length] in L. inversion F as [|? ? B FR]; subst. rewrite p_high by exact B.
  assert (P : forall p k, pre p (p_chars (skipn k r)) = None).
  { intros p k. rewrite IH; [reflexivity|rewrite skipn_length; lia|]. clear - FR. rewrite Forall_forall in *. intros x I. apply FR.
    rewrite <- (firstn_skipn k r). apply in_or_app. right; exact I. }
  pose proof (fun p => P p 0%nat) as P0. pose proof (fun p => P p 1%nat) as P1. pose proof (fun p => P p 2%nat) as P2. pose proof (fun p => P p 3%nat) as P3.
  destruct (rune_more (b :: r)) as [[|[|[|[|k]]]]|]; destruct r as [|c [|d [|e r']]]; cbn [skipn] in *; auto.
Qed.
Lemma rune_more_app : forall b r x,
  rune_more ((b :: r) ++ x) = rune_more (b :: r) \/ Forall (fun b => 128 <= b) r.
Proof.
  intros b r x. destruct r as [|c [|d [|e r]]].
  - right. constructor.
  - destruct (Z.ltb_spec c 128) as [C|C]; [left|right; repeat constructor; lia].
    cbn [app]. destruct x as [|d [|e x]]; cbn [rune_more]; destruct (in_range 194 223 b); try reflexivity.
    + destruct (in_range 224 239 b); [|reflexivity].
      rewrite in_range_false; [reflexivity|]. left. destruct (b =? 224); lia.
    + destruct (in_range 224 239 b).
      { rewrite in_range_false; [reflexivity|]. left. destruct (b =? 224); lia. }
      destruct (in_range 240 244 b); [|reflexivity]. cbn [andb].
      rewrite in_range_false; [reflexivity|]. left. destruct (b =? 240); lia.
  - destruct (Z.ltb_spec c 128) as [C|C]; [left|destruct (Z.ltb_spec d 128) as [D|D]; [left|right; repeat constructor; lia]].
    + cbn [app]. destruct x as [|e x]; cbn [rune_more]; destruct (in_range 194 223 b); try reflexivity;
        destruct (in_range 224 239 b); try reflexivity.
      destruct (in_range 240 244 b); [|reflexivity]. cbn [andb].
      rewrite in_range_false; [reflexivity|]. left. destruct (b =? 240); lia.
    + cbn [app]. destruct x as [|e x]; cbn [rune_more]; destruct (in_range 194 223 b); try reflexivity;
        destruct (in_range 224 239 b); try reflexivity.
      rewrite (in_range_false 128 191 d) by lia. rewrite andb_false_r. reflexivity.
  - left. reflexivity.
Qed.


Lemma p_chars_app : forall s v r x, p_chars s = Some (v, r) -> p_chars (s ++ x) = Some (v, r ++ x).
Proof.
  intros s. remember (length s) as n eqn:N. assert (L : (length s <= n)%nat) by lia. clear N. revert s L.
  induction n as [|n IH]; intros s L v r x H.
  { destruct s; [discriminate H|cbn [length] in L; lia]. }
  assert (ST : forall p t v r, (length t <= n)%nat -> pre p (p_chars t) = Some (v, r) -> pre p (p_chars (t ++ x)) = Some (v, r ++ x)).
  { intros p t v0 r0 L0 H0. destruct (pre_some _ _ _ _ H0) as (v' & E & ->). rewrite (IH t L0 _ _ x E). reflexivity. }
  destruct s as [|b s]; [discriminate H|]. cbn [length] in L.
  destruct (Z.ltb_spec b 128) as [B|B].
  - destruct (Z.eqb_spec b 34) as [->|N1]; [cbn in H; injection H as <- <-; reflexivity|].
    destruct (Z.eqb_spec b 92) as [->|N2].
    + rewrite p_esc in H. cbn [app]. rewrite p_esc. destruct s as [|e s]; [discriminate H|]. cbn [app length] in *.
      destruct (e =? 117).
      2:{ destruct (zlook e escapes) as [c|]; [|discriminate H]. apply ST; [lia|exact H]. }
      destruct s as [|h1 [|h2 [|h3 [|h4 s]]]]; try discriminate H. cbn [app length] in *.
      destruct (hex4 h1 h2 h3 h4) as [c|]; [|discriminate H].
      destruct (in_range 55296 57343 c); [|apply ST; [lia|exact H]].
      destruct s as [|x1 s]; [discriminate H|].
      destruct s as [|x2 s].
      { destruct (pre_some _ _ _ _ H) as (v' & E & EV). cbn [app].
        assert (X1 : x1 <> 92) by (intro Q; subst x1; discriminate E).
        rewrite (proj2 (Z.eqb_neq x1 92) X1).
        assert (G : pre (utf8 65533) (p_chars ([x1] ++ x)) = Some (v, r ++ x)) by (apply ST; [cbn [length] in *; lia|exact H]).
        cbn [app] in G. destruct x as [|q1 [|q2 [|q3 [|q4 [|q5 x]]]]]; exact G. }
      cbn [app]. destruct (Z.eqb_spec x1 92) as [X1|X1]; [destruct (Z.eqb_spec x2 117) as [X2|X2]|].
      * subst x1 x2. destruct s as [|g1 [|g2 [|g3 [|g4 s]]]]; try discriminate H. cbn [app length andb] in *.
        destruct (hex4 g1 g2 g3 g4) as [c2|]; [|discriminate H].
        destruct (in_range 55296 56319 c && in_range 56320 57343 c2).
        -- apply ST; [lia|exact H].
        -- exact (ST _ (92 :: 117 :: g1 :: g2 :: g3 :: g4 :: s) v r ltac:(cbn [length]; lia) H).
      * assert (H' : pre (utf8 65533) (p_chars (x1 :: x2 :: s)) = Some (v, r)).
        { rewrite andb_false_r in H. destruct s as [|g1 [|g2 [|g3 [|g4 s]]]]; exact H. }
        apply ST in H'; [|cbn [length] in *; lia]. cbn [app] in *.
        rewrite andb_false_r. destruct (s ++ x) as [|g1 [|g2 [|g3 [|g4 s']]]]; exact H'.
      * assert (H' : pre (utf8 65533) (p_chars (x1 :: x2 :: s)) = Some (v, r)).
        { cbn [andb] in H. destruct s as [|g1 [|g2 [|g3 [|g4 s]]]]; exact H. }
        apply ST in H'; [|cbn [length] in *; lia]. cbn [app andb] in *.
        destruct (s ++ x) as [|g1 [|g2 [|g3 [|g4 s']]]]; exact H'.
    + destruct (Z.ltb_spec b 32) as [B'|B'].
      { exfalso. cbn [p_chars] in H. rewrite (proj2 (Z.eqb_neq b 34) N1), (proj2 (Z.eqb_neq b 92) N2), (proj2 (Z.ltb_lt b 32) B') in H. discriminate H. }
      rewrite p_plain in H by lia. cbn [app]. rewrite p_plain by lia. apply ST; [lia|exact H].
  - rewrite p_high in H by lia. cbn [app]. rewrite p_high by lia.
    destruct (rune_more_app b s x) as [E|F].
    + cbn [app] in E. rewrite E.
      assert (D : pre (utf8 65533) (p_chars s) = Some (v, r) -> pre (utf8 65533) (p_chars (s ++ x)) = Some (v, r ++ x)) by (apply ST; lia).
      destruct (rune_more (b :: s)) as [[|[|[|[|k]]]]|] eqn:R; try (apply D; exact H).
      * destruct s as [|c s]; [discriminate H|]. cbn [app length] in *. apply ST; [lia|exact H].
      * destruct s as [|c [|d s]]; try discriminate R.
        -- exfalso. cbn [rune_more] in R. destruct (in_range 194 223 b); [destruct (in_range 128 191 c)|]; discriminate R.
        -- cbn [app length] in *. apply ST; [lia|exact H].
      * destruct s as [|c [|d [|e s]]]; try discriminate R.
        -- exfalso. cbn [rune_more] in R. destruct (in_range 194 223 b); [destruct (in_range 128 191 c)|]; discriminate R.
        -- exfalso. cbn [rune_more] in R. destruct (in_range 194 223 b); [destruct (in_range 128 191 c); discriminate R|].
           destruct (in_range 224 239 b); [|discriminate R]. match type of R with (if ?q then _ else _) = _ => destruct q end; discriminate R.
        -- cbn [app length] in *. apply ST; [lia|exact H].
    + exfalso. assert (PH : forall p k, pre p (p_chars (skipn k s)) = None).
      { intros p k. rewrite p_chars_high; [reflexivity|]. rewrite Forall_forall in *. intros y I. apply F.
        rewrite <- (firstn_skipn k s). apply in_or_app. right; exact I. }
      pose proof (fun p => PH p 0%nat) as P0. pose proof (fun p => PH p 1%nat) as P1. pose proof (fun p => PH p 2%nat) as P2. pose proof (fun p => PH p 3%nat) as P3.
      clear PH. destruct (rune_more (b :: s)) as [[|[|[|[|k]]]]|]; destruct s as [|c [|d [|e s']]]; cbn [skipn] in *; congruence.
Qed.

(** What is left is shorter. *)
Lemma p_chars_rest : forall s v r, p_chars s = Some (v, r) -> (length r < length s)%nat.
Proof.
  intros s. remember (length s) as n eqn:N. assert (L : (length s <= n)%nat) by lia. rewrite N. clear N. revert s L.
  induction n as [|n IH]; intros s L v r H.
  { destruct s; [discriminate H|cbn [length] in L; lia]. }
  assert (ST : forall p t v r, (length t <= n)%nat -> pre p (p_chars t) = Some (v, r) -> (length r < length t)%nat).
  { intros p t v0 r0 L0 H0. destruct (pre_some _ _ _ _ H0) as (v' & E & ->). exact (IH t L0 _ _ E). }
  destruct s as [|b s]; [discriminate H|]. cbn [length] in *.
  destruct (Z.ltb_spec b 128) as [B|B].
  - destruct (Z.eqb_spec b 34) as [->|N1]; [cbn in H; injection H as <- <-; lia|].
    destruct (Z.eqb_spec b 92) as [->|N2].
    + rewrite p_esc in H. destruct s as [|e s]; [discriminate H|]. cbn [length] in *.
      destruct (e =? 117).
      2:{ destruct (zlook e escapes) as [c|]; [|discriminate H]. apply ST in H; lia. }
      destruct s as [|h1 [|h2 [|h3 [|h4 s]]]]; try discriminate H. cbn [length] in *.
      destruct (hex4 h1 h2 h3 h4) as [c|]; [|discriminate H].
      destruct (in_range 55296 57343 c); [|apply ST in H; lia].
      assert (D : pre (utf8 65533) (p_chars s) = Some (v, r) -> (length r < S (S (S (S (S (S (length s)))))))%nat).
      { intro Q. apply ST in Q; lia. }
      destruct s as [|x1 [|x2 [|g1 [|g2 [|g3 [|g4 s]]]]]]; try (apply D; exact H). cbn [length] in *.
      destruct ((x1 =? 92) && (x2 =? 117)); [|apply D; exact H].
      destruct (hex4 g1 g2 g3 g4) as [c2|]; [|discriminate H].
      destruct (in_range 55296 56319 c && in_range 56320 57343 c2); [apply ST in H; lia|apply D; exact H].
    + destruct (Z.ltb_spec b 32) as [B'|B'].
      { exfalso. cbn [p_chars] in H. rewrite (proj2 (Z.eqb_neq b 34) N1), (proj2 (Z.eqb_neq b 92) N2), (proj2 (Z.ltb_lt b 32) B') in H. discriminate H. }
      rewrite p_plain in H by lia. apply ST in H; lia.
  - rewrite p_high in H by lia.
    assert (D : pre (utf8 65533) (p_chars s) = Some (v, r) -> (length r < S (length s))%nat) by (intro Q; apply ST in Q; lia).
    destruct (rune_more (b :: s)) as [[|[|[|[|k]]]]|]; destruct s as [|c [|d [|e s']]]; cbn [length] in *; try (apply D; exact H);
      apply ST in H; cbn [length] in *; lia.
Qed.
