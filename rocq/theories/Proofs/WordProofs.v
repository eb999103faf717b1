(** The words of the two trees are bit strings: leading equal bits, left shift
    and leftmost bit. *)
From Coq Require Import Lia.
From Verif.Model Require Import Base NetIP Patricia.
From Verif.Proofs Require Import TrieProofs PatriciaProofs.

Lemma lcp_char : forall (f g : nat -> bool) k s m, (m <= k)%nat ->
  (forall i, (i < m)%nat -> f (s + i)%nat = g (s + i)%nat) ->
  ((m < k)%nat -> f (s + m)%nat <> g (s + m)%nat) ->
  lcp (map f (seq s k)) (map g (seq s k)) = m.
Proof.
  induction k as [|k IH]; intros s m L E D.
  - cbn. lia.
  - cbn [seq map lcp]. destruct m as [|m].
    + specialize (D ltac:(lia)). rewrite Nat.add_0_r in D. destruct (Bool.eqb (f s) (g s)) eqn:Q; [|reflexivity].
      apply Bool.eqb_prop in Q. congruence.
    + pose proof (E 0%nat ltac:(lia)) as E0. rewrite Nat.add_0_r in E0. rewrite E0, Bool.eqb_reflx. f_equal.
      apply IH; [lia | |].
      * intros i I. specialize (E (S i) ltac:(lia)). rewrite <- Nat.add_succ_comm in E. exact E.
      * intros I. specialize (D ltac:(lia)). rewrite <- Nat.add_succ_comm in D. exact D.
Qed.

Lemma above : forall x w i, 0 <= x < 2 ^ w -> w <= i -> 0 <= w -> Z.testbit x i = false.
Proof.
  intros x w i X I W. destruct (Z.eq_dec x 0) as [->|N]; [apply Z.bits_0|].
  apply Z.bits_above_log2; [lia|]. assert (Z.log2 x < w) by (apply Z.log2_lt_pow2; lia). lia.
Qed.

Lemma clz_spec : forall w p a, 0 < w -> 0 <= p < 2 ^ w -> 0 <= a < 2 ^ w ->
  let m := clz w (Z.lxor p a) in
  0 <= m <= w /\ (forall i, 0 <= i < m -> Z.testbit p (w - 1 - i) = Z.testbit a (w - 1 - i)) /\
  (m < w -> Z.testbit p (w - 1 - m) <> Z.testbit a (w - 1 - m)).
Proof.
  intros w p a W P A. cbn zeta. unfold clz. set (x := Z.lxor p a).
  assert (X : 0 <= x) by (apply Z.lxor_nonneg; lia).
  destruct (Z.eqb_spec x 0) as [X0|X0].
  - apply Z.lxor_eq in X0. subst a. split; [lia|]. split; [reflexivity | lia].
  - assert (XB : x < 2 ^ w).
    { destruct (Z.lt_ge_cases x (2 ^ w)) as [H|H]; [exact H|exfalso].
      assert (L : w <= Z.log2 x) by (apply Z.log2_le_pow2; lia).
      pose proof (Z.bit_log2 x ltac:(lia)) as T. unfold x in T at 1. rewrite Z.lxor_spec in T.
      rewrite (above p w), (above a w) in T by lia. discriminate. }
    pose proof (Z.log2_nonneg x) as LN. assert (LW : Z.log2 x < w) by (apply Z.log2_lt_pow2; lia).
    split; [lia|]. split.
    + intros i I. assert (T : Z.testbit x (w - 1 - i) = false) by (apply Z.bits_above_log2; lia).
      unfold x in T. rewrite Z.lxor_spec in T. now apply Bool.xorb_eq.
    + intros _. replace (w - 1 - (w - 1 - Z.log2 x)) with (Z.log2 x) by lia.
      pose proof (Z.bit_log2 x ltac:(lia)) as T. unfold x in T at 1. rewrite Z.lxor_spec in T.
      intros Q. rewrite Q, Bool.xorb_nilpotent in T. discriminate.
Qed.

(** ** uint32 *)

Definition ok4 (x : Z) : Prop := 0 <= x < 2 ^ 32.
Definition bit4 (x : Z) (i : nat) : bool := Z.testbit x (31 - Z.of_nat i).

Lemma match4_lcp : forall p a len, ok4 p -> ok4 a -> 0 <= len <= 32 ->
  match4 p a len = Z.of_nat (lcp (wbits Z bit4 p len) (wbits Z bit4 a len)).
Proof.
  intros p a len P A L. destruct (clz_spec 32 p a ltac:(lia) P A) as (B & E & D). unfold match4.
  set (m := clz 32 (Z.lxor p a)) in *. unfold wbits.
  destruct (Z.ltb_spec len m) as [Q|Q].
  - rewrite (lcp_char _ _ _ _ (Z.to_nat len)); [lia | lia | | lia].
    intros i I. unfold bit4. cbn [plus]. replace (31 - Z.of_nat i) with (32 - 1 - Z.of_nat i) by lia. apply E. lia.
  - rewrite (lcp_char _ _ _ _ (Z.to_nat m)); [lia | lia | |].
    + intros i I. unfold bit4. cbn [plus]. replace (31 - Z.of_nat i) with (32 - 1 - Z.of_nat i) by lia. apply E. lia.
    + intros I. unfold bit4. cbn [plus]. replace (31 - Z.of_nat (Z.to_nat m)) with (32 - 1 - m) by lia. apply D. lia.
Qed.
Lemma shl4_ok : forall x n, ok4 x -> 0 <= n -> ok4 (shl4 x n).
Proof. intros. unfold ok4, shl4. apply Z.mod_pos_bound. lia. Qed.

Lemma map_seq_skip : forall {A} (f : nat -> A) n k s, (n <= k)%nat ->
  skipn n (map f (seq s k)) = map (fun i => f (n + i)%nat) (seq s (k - n)).
Proof.
  induction n as [|n IH]; intros k s L.
  - cbn [skipn plus]. now rewrite Nat.sub_0_r.
  - destruct k as [|k]; [lia|]. cbn [seq map skipn Nat.sub]. rewrite IH by lia.
    rewrite <- seq_shift, map_map. apply map_ext. intros i. f_equal. lia.
Qed.

Lemma shl4_bits : forall x n len, ok4 x -> 0 <= n <= len -> len <= 32 ->
  wbits Z bit4 (shl4 x n) (len - n) = skipn (Z.to_nat n) (wbits Z bit4 x len).
Proof.
  intros x n len X N L. unfold wbits. rewrite map_seq_skip by lia.
  replace (Z.to_nat (len - n)) with (Z.to_nat len - Z.to_nat n)%nat by lia.
  apply map_ext_in. intros i I. apply in_seq in I. unfold bit4, shl4.
  rewrite Z.mod_pow2_bits_low by lia. rewrite Z.mul_pow2_bits by lia. f_equal. lia.
Qed.

Lemma top_bit : forall w x, 0 < w -> 0 <= x < 2 ^ w -> (2 ^ (w - 1) <=? x) = Z.testbit x (w - 1).
Proof.
  intros w x W X. destruct (Z.leb_spec (2 ^ (w - 1)) x) as [H|H].
  - symmetry. assert (P : 0 < 2 ^ (w - 1)) by (apply Z.pow_pos_nonneg; lia).
    assert (L1 : w - 1 <= Z.log2 x) by (apply Z.log2_le_pow2; lia).
    assert (L2 : Z.log2 x < w) by (apply Z.log2_lt_pow2; lia).
    replace (w - 1) with (Z.log2 x) by lia. apply Z.bit_log2. lia.
  - symmetry. destruct (Z.eq_dec x 0) as [->|N]; [apply Z.bits_0|].
    apply Z.bits_above_log2; [lia|]. apply Z.log2_lt_pow2; lia.
Qed.
Lemma left4_bit : forall x, ok4 x -> left4 x = bit4 x 0.
Proof. intros x X. exact (top_bit 32 x ltac:(lia) X). Qed.

(** ** Two uint64 *)

Definition ok6 (x : Z * Z) : Prop := 0 <= fst x < 2 ^ 64 /\ 0 <= snd x < 2 ^ 64.
Definition bit6 (x : Z * Z) (i : nat) : bool :=
  if Z.of_nat i <? 64 then Z.testbit (fst x) (63 - Z.of_nat i) else Z.testbit (snd x) (127 - Z.of_nat i).

Lemma match6_lcp : forall p a len, ok6 p -> ok6 a -> 0 <= len <= 128 ->
  match6 p a len = Z.of_nat (lcp (wbits _ bit6 p len) (wbits _ bit6 a len)).
Proof.
  intros [pl pr] [al ar] len [Pl Pr] [Al Ar] L. cbn [fst snd] in *.
  destruct (clz_spec 64 pl al ltac:(lia) Pl Al) as (Bl & El & Dl).
  destruct (clz_spec 64 pr ar ltac:(lia) Pr Ar) as (Br & Er & Dr).
  unfold match6. cbn [fst snd].
  set (ml := clz 64 (Z.lxor pl al)) in *. set (mr := clz 64 (Z.lxor pr ar)) in *. unfold wbits.
  assert (Lo : forall i, Z.of_nat i < ml -> bit6 (pl, pr) i = bit6 (al, ar) i).
  { intros i I. unfold bit6. cbn [fst snd]. rewrite (proj2 (Z.ltb_lt (Z.of_nat i) 64)) by lia.
    replace (63 - Z.of_nat i) with (64 - 1 - Z.of_nat i) by lia. apply El. lia. }
  assert (LoD : ml < 64 -> bit6 (pl, pr) (Z.to_nat ml) <> bit6 (al, ar) (Z.to_nat ml)).
  { intros H. unfold bit6. cbn [fst snd]. rewrite (proj2 (Z.ltb_lt (Z.of_nat (Z.to_nat ml)) 64)) by lia.
    replace (63 - Z.of_nat (Z.to_nat ml)) with (64 - 1 - ml) by lia. now apply Dl. }
  destruct (Z.eqb_spec ml 64) as [M|M]; [destruct (Z.ltb_spec 64 len) as [M2|M2]|]; cbn [andb].
  - assert (Hi : forall i, Z.of_nat i < ml + mr -> bit6 (pl, pr) i = bit6 (al, ar) i).
    { intros i I. destruct (Z.lt_ge_cases (Z.of_nat i) 64) as [C|C]; [apply Lo; lia|].
      unfold bit6. cbn [fst snd]. rewrite (proj2 (Z.ltb_ge (Z.of_nat i) 64)) by lia.
      replace (127 - Z.of_nat i) with (64 - 1 - (Z.of_nat i - 64)) by lia. apply Er. lia. }
    destruct (Z.ltb_spec len (ml + mr)) as [Q|Q].
    + rewrite (lcp_char _ _ _ _ (Z.to_nat len)); [lia | lia | | lia]. intros i I. apply Hi. lia.
    + rewrite (lcp_char _ _ _ _ (Z.to_nat (ml + mr))); [lia | lia | |].
      * intros i I. apply Hi. lia.
      * intros I. cbn [plus]. unfold bit6. cbn [fst snd].
        rewrite (proj2 (Z.ltb_ge (Z.of_nat (Z.to_nat (ml + mr))) 64)) by lia.
        replace (127 - Z.of_nat (Z.to_nat (ml + mr))) with (64 - 1 - mr) by lia. apply Dr. lia.
  - destruct (Z.ltb_spec len ml) as [Q|Q].
    + rewrite (lcp_char _ _ _ _ (Z.to_nat len)); [lia | lia | | lia]. intros i I. apply Lo. lia.
    + rewrite (lcp_char _ _ _ _ (Z.to_nat ml)); [lia | lia | |lia]. intros i I. apply Lo. lia.
  - destruct (Z.ltb_spec len ml) as [Q|Q].
    + rewrite (lcp_char _ _ _ _ (Z.to_nat len)); [lia | lia | | lia]. intros i I. apply Lo. lia.
    + rewrite (lcp_char _ _ _ _ (Z.to_nat ml)); [lia | lia | |].
      * intros i I. apply Lo. lia.
      * intros I. apply LoD. lia.
Qed.

Lemma lor_bound : forall x y n, 0 <= n -> 0 <= x < 2 ^ n -> 0 <= y < 2 ^ n -> 0 <= Z.lor x y < 2 ^ n.
Proof.
  intros x y n N X Y. assert (0 <= Z.lor x y) by (apply Z.lor_nonneg; lia). split; [lia|].
  destruct (Z.eq_dec (Z.lor x y) 0) as [->|Q]; [apply Z.pow_pos_nonneg; lia|].
  apply Z.log2_lt_pow2; [lia|]. rewrite Z.log2_lor by lia.
  assert (P : 0 < 2 ^ n) by (apply Z.pow_pos_nonneg; lia).
  assert (LX : Z.log2 x < n \/ x = 0) by (destruct (Z.eq_dec x 0); [now right | left; apply Z.log2_lt_pow2; lia]).
  assert (LY : Z.log2 y < n \/ y = 0) by (destruct (Z.eq_dec y 0); [now right | left; apply Z.log2_lt_pow2; lia]).
  destruct (Z.eq_dec n 0) as [->|N0]; [exfalso; cbn in *; assert (x = 0) by lia; assert (y = 0) by lia; subst; now apply Q|].
  destruct LX as [LX| ->], LY as [LY| ->]; cbn [Z.log2] in *; try lia.
Qed.

Lemma shl6_ok : forall x n, ok6 x -> 0 <= n -> ok6 (shl6 x n).
Proof.
  intros [l r] n [L R] N. unfold ok6, shl6. cbn [fst snd] in *. destruct (Z.leb_spec 64 n) as [Q|Q]; cbn [fst snd].
  - split; [apply Z.mod_pos_bound; lia | lia].
  - split; [|apply Z.mod_pos_bound; lia]. apply lor_bound; [lia | apply Z.mod_pos_bound; lia|].
    split; [apply Z.div_pos; [lia | apply Z.pow_pos_nonneg; lia]|].
    assert (P : 1 <= 2 ^ (64 - n)) by (apply (Z.pow_le_mono_r 2 0); lia).
    apply Z.le_lt_trans with r; [|lia]. apply Z.div_le_upper_bound; nia.
Qed.

Lemma shl6_bits : forall x n len, ok6 x -> 0 <= n <= len -> len <= 128 ->
  wbits _ bit6 (shl6 x n) (len - n) = skipn (Z.to_nat n) (wbits _ bit6 x len).
Proof.
  intros [l r] n len [Ll Rr] N L. cbn [fst snd] in *. unfold wbits. rewrite map_seq_skip by lia.
  replace (Z.to_nat (len - n)) with (Z.to_nat len - Z.to_nat n)%nat by lia.
  apply map_ext_in. intros i I. apply in_seq in I. unfold bit6, shl6.
  replace (Z.of_nat (Z.to_nat n + i)) with (n + Z.of_nat i) by lia.
  assert (Z.of_nat i < len - n) by lia. set (j := Z.of_nat i) in *. assert (0 <= j) by lia.
  destruct (Z.leb_spec 64 n) as [Q|Q]; cbn [fst snd].
  - rewrite (proj2 (Z.ltb_lt j 64)) by lia. rewrite (proj2 (Z.ltb_ge (n + j) 64)) by lia.
    rewrite Z.mod_pow2_bits_low by lia. rewrite Z.mul_pow2_bits by lia. f_equal. lia.
  - destruct (Z.ltb_spec j 64) as [J|J].
    + rewrite Z.lor_spec, Z.mod_pow2_bits_low by lia. rewrite Z.mul_pow2_bits by lia.
      rewrite Z.div_pow2_bits by lia.
      destruct (Z.ltb_spec (n + j) 64) as [K|K].
      * rewrite (above r 64) by lia. rewrite Bool.orb_false_r. f_equal. lia.
      * rewrite (Z.testbit_neg_r l) by lia. cbn [orb]. f_equal. lia.
    + rewrite (proj2 (Z.ltb_ge (n + j) 64)) by lia.
      rewrite Z.mod_pow2_bits_low by lia. rewrite Z.mul_pow2_bits by lia. f_equal. lia.
Qed.
Lemma left6_bit : forall x, ok6 x -> left6 x = bit6 x 0.
Proof. intros [l r] [L R]. exact (top_bit 64 l ltac:(lia) L). Qed.

(** ** The two trees *)

Definition adds4 := add_all Z match4 shl4 left4.
Definition adds6 := add_all (Z * Z) match6 shl6 left6.

Theorem find4_after_adds : forall l, (forall e, In e l -> a_ok Z 32 ok4 (fst e)) -> 2 + 2 * Z.of_nat (length l) < 2 ^ 32 ->
  exists t, adds4 new4 l = TOk t /\ forall a, a_ok Z 32 ok4 a ->
    find4 t a = TOk (flat_map (fun k => at_bits Z bit4 l (firstn k (abits Z bit4 a))) (seq 0 (S (length (abits Z bit4 a))))).
Proof.
  apply (find_after_adds Z 0 match4 shl4 left4 32 ok4 bit4).
  - lia.
  - unfold ok4. lia.
  - exact match4_lcp.
  - exact shl4_ok.
  - exact shl4_bits.
  - exact left4_bit.
Qed.
Theorem find6_after_adds : forall l, (forall e, In e l -> a_ok (Z * Z) 128 ok6 (fst e)) -> 2 + 2 * Z.of_nat (length l) < 2 ^ 32 ->
  exists t, adds6 new6 l = TOk t /\ forall a, a_ok (Z * Z) 128 ok6 a ->
    find6 t a = TOk (flat_map (fun k => at_bits (Z * Z) bit6 l (firstn k (abits (Z * Z) bit6 a))) (seq 0 (S (length (abits (Z * Z) bit6 a))))).
Proof.
  apply (find_after_adds (Z * Z) (0, 0) match6 shl6 left6 128 ok6 bit6).
  - lia.
  - unfold ok6. cbn. lia.
  - exact match6_lcp.
  - exact shl6_ok.
  - exact shl6_bits.
  - exact left6_bit.
Qed.
