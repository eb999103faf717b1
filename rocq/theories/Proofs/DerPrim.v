(** Reading back what encoding/asn1 writes: headers and simple types. *)
From Coq Require Import Lia ZifyBool ZifyNat.
From Verif.Model Require Import Base Str NetIP CertRes Ber Asn1 GoTime Der.
From Verif.Spec Require Import Addr BerSpec.
From Verif.Proofs Require Import NetIPProofs BerProofs Asn1Proofs.
Ltac Zify.zify_post_hook ::= Z.div_mod_to_equations.

(** ** Headers *)
Lemma header_read : forall c cons tag n r, 0 <= c < 4 -> 0 <= tag < 31 -> 0 <= n < 2 ^ 31 ->
  parse_header (put_header c cons tag n ++ r) = Some (mkH c cons tag n, r).
Proof.
  intros c cons tag n r Hc Ht Hn. unfold put_header.
  destruct (31 <=? tag) eqn:E; [lia|]. cbn [app]. unfold parse_header.
  set (b := c * 64 + (if cons then 32 else 0) + tag).
  assert (B : b mod 32 = tag) by (subst b; destruct cons; lia).
  rewrite B. destruct (tag =? 31) eqn:E2; [lia|].
  rewrite (parse_length_read n _ r (encode_length_der n ltac:(lia)) ltac:(lia)).
  replace (b / 64) with c by (subst b; destruct cons; lia).
  replace (negb (b / 32 mod 2 =? 0)) with cons; [reflexivity|].
  subst b. destruct cons.
  - destruct ((c * 64 + 32 + tag) / 32 mod 2 =? 0) eqn:X; [lia|reflexivity].
  - destruct ((c * 64 + 0 + tag) / 32 mod 2 =? 0) eqn:X; [reflexivity|lia].
Qed.

Lemma tlv_read : forall c cons tag b r, 0 <= c < 4 -> 0 <= tag < 31 -> Z.of_nat (length b) < 2 ^ 31 ->
  parse_header (put_tlv c cons tag b ++ r) = Some (mkH c cons tag (Z.of_nat (length b)), b ++ r).
Proof.
  intros. unfold put_tlv. rewrite <- app_assoc. apply header_read; lia.
Qed.

Lemma put_header_cons : forall c cons tag n, exists x l, put_header c cons tag n = x :: l.
Proof. intros. unfold put_header. destruct (31 <=? tag); cbn [app]; eauto. Qed.
Lemma put_tlv_cons : forall c cons tag b, exists x l, put_tlv c cons tag b = x :: l.
Proof.
  intros. unfold put_tlv. destruct (put_header_cons c cons tag (Z.of_nat (length b))) as (x & l & ->).
  cbn [app]. eauto.
Qed.
Lemma put_tlv_length : forall c cons tag b, (length b < length (put_tlv c cons tag b))%nat.
Proof.
  intros. unfold put_tlv. rewrite app_length.
  destruct (put_header_cons c cons tag (Z.of_nat (length b))) as (x & l & ->). cbn [length]. lia.
Qed.

(** ** Integers *)
Lemma pow256S : forall k, 256 ^ Z.of_nat (S k) = 256 * 256 ^ Z.of_nat k.
Proof. intros. rewrite Nat2Z.inj_succ, Z.pow_succ_r by lia. reflexivity. Qed.
Lemma pow256pos : forall k, 0 < 256 ^ Z.of_nat k.
Proof. intros. apply Z.pow_pos_nonneg; lia. Qed.

Lemma be_length : forall k n, length (be_bytes k n) = k.
Proof. induction k; intros; cbn [be_bytes length]; auto. Qed.

Lemma be_fold : forall k n acc,
  fold_left (fun acc b => acc * 256 + b) (be_bytes k n) acc = acc * 256 ^ Z.of_nat k + n mod 256 ^ Z.of_nat k.
Proof.
  induction k; intros n acc.
  - cbn [be_bytes fold_left]. change (256 ^ Z.of_nat 0) with 1. rewrite Z.mod_1_r. lia.
  - cbn [be_bytes fold_left]. rewrite IHk, pow256S. set (P := 256 ^ Z.of_nat k).
    pose proof (pow256pos k) as HP. fold P in HP.
    replace (256 * P) with (P * 256) by ring.
    rewrite (Z.rem_mul_r n P 256) by lia. ring.
Qed.
Lemma be_value_bytes : forall k n, be_value (be_bytes k n) = n mod 256 ^ Z.of_nat k.
Proof. intros. unfold be_value. rewrite be_fold. lia. Qed.

(** [n] fits in [k] octets of two's complement *)
Definition fits_in (k : nat) (n : Z) : Prop := - 2 ^ (8 * Z.of_nat k - 1) <= n < 2 ^ (8 * Z.of_nat k - 1).

Lemma half_pow : forall k, 2 * 2 ^ (8 * Z.of_nat (S k) - 1) = 256 ^ Z.of_nat (S k).
Proof.
  intros. rewrite <- Z.pow_succ_r by lia. change 256 with (2 ^ 8). rewrite <- Z.pow_mul_r by lia. f_equal. lia.
Qed.
Lemma half_256 : forall k, 2 ^ (8 * Z.of_nat (S k) - 1) = 128 * 256 ^ Z.of_nat k.
Proof.
  intros. change 256 with (2 ^ 8). rewrite <- Z.pow_mul_r by lia. change 128 with (2 ^ 7).
  rewrite <- Z.pow_add_r by lia. f_equal. lia.
Qed.

Lemma signed_bytes : forall k n, fits_in (S k) n -> signed_value (be_bytes (S k) n) = n.
Proof.
  intros k n H. unfold fits_in in H. rewrite half_256 in H.
  unfold signed_value. pose proof (be_value_bytes (S k) n) as V. pose proof (be_length (S k) n) as L.
  cbn [be_bytes] in *. rewrite V, L. rewrite pow256S in *.
  set (P := 256 ^ Z.of_nat k) in *. assert (HP : 0 < P) by apply pow256pos. clearbody P.
  destruct (128 <=? (n / P) mod 256) eqn:E.
  - assert (n < 0).
    { destruct (Z_lt_ge_dec n 0) as [X|X]; [exact X|]. exfalso.
      assert (0 <= n / P < 128) by (split; [apply Z.div_pos; lia|apply Z.div_lt_upper_bound; lia]).
      rewrite Z.mod_small in E by lia. lia. }
    replace (n mod (256 * P)) with (n + 256 * P); [lia|].
    symmetry. replace (n mod (256 * P)) with ((n + 1 * (256 * P)) mod (256 * P)) by (apply Z.mod_add; lia).
    rewrite Z.mod_small; lia.
  - assert (0 <= n).
    { destruct (Z_lt_ge_dec n 0) as [X|X]; [|lia]. exfalso.
      assert (-128 <= n / P < 0) by (split; [apply Z.div_le_lower_bound; lia|apply Z.div_lt_upper_bound; lia]).
      replace ((n / P) mod 256) with (n / P + 256) in E; [lia|].
      symmetry. replace ((n / P) mod 256) with ((n / P + 1 * 256) mod 256) by (apply Z.mod_add; lia).
      apply Z.mod_small. lia. }
    rewrite Z.mod_small; lia.
Qed.

Lemma int_length_pos : forall f n, exists k, int_length f n = S k.
Proof. destruct f; intros; cbn [int_length]; [eauto|]. destruct (_ && _); eauto. Qed.

Lemma int_length_fits : forall f n, -128 * 256 ^ Z.of_nat f <= n < 128 * 256 ^ Z.of_nat f ->
  fits_in (int_length f n) n /\
  (forall k, int_length f n = S (S k) -> ~ fits_in (S k) n).
Proof.
  induction f; intros n H.
  - change (256 ^ Z.of_nat 0) with 1 in H. cbn [int_length]. split.
    + unfold fits_in. change (2 ^ (8 * Z.of_nat 1 - 1)) with 128. lia.
    + intros k X. discriminate.
  - cbn [int_length]. destruct ((-128 <=? n) && (n <=? 127)) eqn:E.
    + split; [|intros k X; discriminate]. unfold fits_in. change (2 ^ (8 * Z.of_nat 1 - 1)) with 128. lia.
    + rewrite pow256S in H. set (P := 256 ^ Z.of_nat f) in *. assert (HP : 0 < P) by apply pow256pos.
      assert (Q : -128 * P <= n / 256 < 128 * P).
      { split; [apply Z.div_le_lower_bound; lia|apply Z.div_lt_upper_bound; lia]. }
      destruct (IHf (n / 256) ltac:(fold P; lia)) as [F G].
      destruct (int_length_pos f (n / 256)) as (j & Ej). rewrite Ej in *.
      split.
      * unfold fits_in in *. rewrite half_256 in *. rewrite pow256S. set (R := 256 ^ Z.of_nat j) in *.
        assert (0 < R) by apply pow256pos. nia.
      * intros k X. injection X as <-. destruct j as [|j].
        -- unfold fits_in. change (2 ^ (8 * Z.of_nat 1 - 1)) with 128. lia.
        -- intros C. apply (G j eq_refl). unfold fits_in in *. rewrite half_256 in *. rewrite pow256S in C.
           set (R := 256 ^ Z.of_nat j) in *. assert (0 < R) by apply pow256pos.
           split; [apply Z.div_le_lower_bound; lia|apply Z.div_lt_upper_bound; lia].
Qed.

Lemma be_check : forall k n, fits_in (S k) n -> (forall j, k = S j -> ~ fits_in (S j) n) ->
  check_integer (be_bytes (S k) n) = true.
Proof.
  intros [|k] n F M; [reflexivity|].
  specialize (M k eq_refl). cbn [be_bytes check_integer].
  unfold fits_in in *. rewrite half_256 in *. rewrite pow256S in *. set (P := 256 ^ Z.of_nat k) in *.
  assert (HP : 0 < P) by apply pow256pos. clearbody P.
  replace (n / (256 * P)) with (n / P / 256) by (rewrite Z.div_div by lia; f_equal; ring).
  set (q := n / P) in *.
  assert (Q : P * q <= n < P * q + P) by (subst q; pose proof (Z.mul_div_le n P ltac:(lia)); pose proof (Z.mul_succ_div_gt n P ltac:(lia)); lia).
  assert (QB : -32768 <= q < 32768).
  { split.
    - destruct (Z_lt_ge_dec q (-32768)); [|lia]. nia.
    - destruct (Z_lt_ge_dec q 32768); [lia|]. nia. }
  assert (QM : q < -128 \/ 128 <= q).
  { destruct (Z_lt_ge_dec q (-128)); [lia|]. destruct (Z_lt_ge_dec q 128); [|lia]. exfalso. apply M. nia. }
  clearbody q. clear - QB QM. lia.
Qed.

Lemma put_int_ok : forall n, signed_value (put_int n) = n /\ check_integer (put_int n) = true /\
  (- 2 ^ 63 <= n < 2 ^ 63 -> (length (put_int n) <= 8)%nat) /\ put_int n <> [].
Proof.
  intros n. unfold put_int. set (f := S (Z.to_nat (Z.log2 (Z.abs n)))).
  assert (B : Z.abs n < 128 * 256 ^ Z.of_nat f).
  { subst f. destruct (Z.eq_dec (Z.abs n) 0) as [E|E].
    - rewrite E. pose proof (pow256pos (S (Z.to_nat (Z.log2 0)))). lia.
    - pose proof (Z.log2_spec (Z.abs n) ltac:(lia)) as [_ L].
      pose proof (Z.log2_nonneg (Z.abs n)) as N.
      rewrite Nat2Z.inj_succ, Z2Nat.id by lia.
      assert (2 ^ Z.succ (Z.log2 (Z.abs n)) <= 256 ^ Z.succ (Z.log2 (Z.abs n))) by (apply Z.pow_le_mono_l; lia).
      assert (0 < 256 ^ Z.succ (Z.log2 (Z.abs n))) by (apply Z.pow_pos_nonneg; lia). lia. }
  destruct (int_length_fits f n ltac:(lia)) as [F M]. destruct (int_length_pos f n) as (k & E). rewrite E in *.
  split; [now apply signed_bytes|]. split; [|split].
  - apply be_check; [exact F|]. intros j ->. now apply M.
  - intros R. rewrite be_length. destruct (le_lt_dec (S k) 8) as [X|X]; [exact X|]. exfalso.
    destruct k as [|k]; [lia|]. apply (M k eq_refl). unfold fits_in.
    assert (2 ^ 63 <= 2 ^ (8 * Z.of_nat (S k) - 1)) by (apply Z.pow_le_mono_r; lia). lia.
  - cbn [be_bytes]. discriminate.
Qed.

Lemma int64_back : forall n, - 2 ^ 63 <= n < 2 ^ 63 -> parse_int64 (put_int n) = Some n.
Proof.
  intros n H. destruct (put_int_ok n) as (A & B & C & _). unfold parse_int64. rewrite A, B.
  specialize (C H). destruct (Z.of_nat (length (put_int n)) <=? 8) eqn:E; [reflexivity|lia].
Qed.
Lemma bigint_back : forall n, parse_bigint (put_int n) = Some n.
Proof. intros n. destruct (put_int_ok n) as (A & B & _). unfold parse_bigint. now rewrite A, B. Qed.

(** ** Base 128 and object identifiers *)
Lemma pow128S : forall k, 128 ^ Z.of_nat (S k) = 128 * 128 ^ Z.of_nat k.
Proof. intros. rewrite Nat2Z.inj_succ, Z.pow_succ_r by lia. reflexivity. Qed.
Lemma pow128pos : forall k, 0 < 128 ^ Z.of_nat k.
Proof. intros. apply Z.pow_pos_nonneg; lia. Qed.

Lemma digits_back : forall j n acc first k r,
  (S j <= k)%nat -> 0 <= acc -> acc * 128 ^ Z.of_nat (S j) + n mod 128 ^ Z.of_nat (S j) < 2 ^ 31 ->
  (first = true -> (0 < j)%nat -> (n / 128 ^ Z.of_nat j) mod 128 <> 0) ->
  base128 k first acc (base128_digits (S j) n ++ r)
  = Some (acc * 128 ^ Z.of_nat (S j) + n mod 128 ^ Z.of_nat (S j), r).
Proof.
  induction j; intros n acc first k r Hk Ha Hb Hf; (destruct k as [|k]; [lia|]).
  - change (base128_digits 1 n) with [(n / 1) mod 128 + 0]. rewrite Z.div_1_r, Z.add_0_r.
    change (128 ^ Z.of_nat 1) with 128 in *. cbn [app base128].
    assert (R : 0 <= n mod 128 < 128) by lia.
    destruct (n mod 128 =? 128) eqn:E1; [lia|]. rewrite andb_false_r.
    destruct (n mod 128 <? 128) eqn:E2; [|lia]. rewrite (Z.mod_small (n mod 128) 128) by lia.
    destruct (acc * 128 + n mod 128 <? 2 ^ 31) eqn:E3; [reflexivity|lia].
  - remember (S j) as i. cbn [base128_digits]. assert (E0 : Nat.eqb i 0 = false) by (subst i; reflexivity). rewrite E0.
    cbn [app base128]. set (d := (n / 128 ^ Z.of_nat i) mod 128) in *.
    assert (Hd : 0 <= d < 128) by (subst d; lia).
    assert (X : first && (d + 128 =? 128) = false).
    { destruct first; [|reflexivity]. specialize (Hf eq_refl ltac:(lia)). cbn [andb]. lia. }
    rewrite X. destruct (d + 128 <? 128) eqn:E1; [lia|].
    replace ((d + 128) mod 128) with d by lia.
    assert (EQ : (acc * 128 + d) * 128 ^ Z.of_nat i + n mod 128 ^ Z.of_nat i
                 = acc * 128 ^ Z.of_nat (S i) + n mod 128 ^ Z.of_nat (S i)).
    { rewrite (pow128S i). pose proof (pow128pos i). replace (128 * 128 ^ Z.of_nat i) with (128 ^ Z.of_nat i * 128) by ring.
      rewrite (Z.rem_mul_r n (128 ^ Z.of_nat i) 128) by lia. fold d. ring. }
    subst i. rewrite IHj; [now rewrite EQ|lia|lia|lia|discriminate].
Qed.

Lemma base128_length_ok : forall f n, 0 < n < 128 ^ Z.of_nat f ->
  exists j, base128_length f n = S j /\ 128 ^ Z.of_nat j <= n < 128 ^ Z.of_nat (S j).
Proof.
  induction f; intros n H.
  - change (128 ^ Z.of_nat 0) with 1 in H. lia.
  - cbn [base128_length]. destruct (n <=? 0) eqn:E; [lia|].
    destruct (Z_lt_ge_dec n 128) as [X|X].
    + exists O. replace (n / 128) with 0 by lia. split; [destruct f; reflexivity|].
      change (128 ^ Z.of_nat 0) with 1. change (128 ^ Z.of_nat 1) with 128. lia.
    + rewrite pow128S in H. destruct (IHf (n / 128)) as (j & Ej & B).
      { split; [lia|]. apply Z.div_lt_upper_bound; lia. }
      exists (S j). rewrite Ej. split; [reflexivity|]. rewrite !pow128S in *. pose proof (pow128pos j). lia.
Qed.

Lemma base128_back : forall n r, 0 <= n < 2 ^ 31 -> base128 5 true 0 (put_base128 n ++ r) = Some (n, r).
Proof.
  intros n r H. unfold put_base128. destruct (n =? 0) eqn:E.
  - apply Z.eqb_eq in E. subst n. reflexivity.
  - destruct (base128_length_ok 10 n) as (j & Ej & B).
    { split; [lia|]. change (128 ^ Z.of_nat 10) with (2 ^ 70). lia. }
    rewrite Ej.
    assert (J : (j <= 4)%nat).
    { destruct (le_lt_dec j 4) as [X|X]; [exact X|]. exfalso.
      assert (128 ^ 5 <= 128 ^ Z.of_nat j) by (apply Z.pow_le_mono_r; lia). lia. }
    rewrite digits_back; try lia.
    + now rewrite (Z.mod_small n) by (pose proof (pow128pos j); lia).
    + rewrite (Z.mod_small n) by (pose proof (pow128pos j); lia). lia.
    + intros _ Hj. rewrite pow128S in B. pose proof (pow128pos j).
      assert (1 <= n / 128 ^ Z.of_nat j < 128).
      { split; [apply Z.div_le_lower_bound; lia|apply Z.div_lt_upper_bound; lia]. }
      rewrite Z.mod_small; lia.
Qed.

Lemma put_base128_ne : forall n, 0 <= n < 2 ^ 31 -> (0 < length (put_base128 n))%nat.
Proof.
  intros n H. destruct (put_base128 n) eqn:E; [|cbn [length]; lia].
  pose proof (base128_back n [] H) as X. rewrite E in X. discriminate.
Qed.

Definition arc_ok (n : Z) : bool := (0 <=? n) && (n <? 2 ^ 31).
Lemma oid_rest_back : forall l f, forallb arc_ok l = true ->
  (length (flat_map put_base128 l) <= f)%nat -> oid_rest f (flat_map put_base128 l) = Some l.
Proof.
  induction l as [|n l IH]; intros f H Hf.
  - destruct f; reflexivity.
  - cbn [forallb] in H. apply andb_true_iff in H. destruct H as [Hn Hl]. unfold arc_ok in Hn.
    cbn [flat_map] in *. rewrite app_length in Hf.
    pose proof (put_base128_ne n ltac:(lia)) as Ne.
    destruct f as [|f]; [lia|].
    pose proof (base128_back n (flat_map put_base128 l) ltac:(lia)) as B.
    set (w := put_base128 n ++ flat_map put_base128 l) in *.
    destruct w as [|x w'] eqn:Ew; [discriminate|].
    cbn [oid_rest]. rewrite B, IH; [reflexivity|exact Hl|lia].
Qed.

(** The first two arcs are packed into one number. *)
Definition oid_fits (l : list Z) : Prop :=
  match l with
  | a :: b :: r => ((0 <= a < 2 /\ 0 <= b < 40) \/ (a = 2 /\ 0 <= b /\ 80 + b < 2 ^ 31)) /\ forallb arc_ok r = true
  | _ => False
  end.
Lemma oid_back : forall l, oid_fits l -> exists b, put_oid l = Some b /\ parse_oid_value b = Some l.
Proof.
  intros [|a [|b r]] H; try contradiction. destruct H as [Hab Hr].
  unfold put_oid.
  destruct ((2 <? a) || ((a <? 2) && (40 <=? b))) eqn:E; [lia|].
  exists (put_base128 (a * 40 + b) ++ flat_map put_base128 r). split; [reflexivity|].
  change (put_base128 (a * 40 + b) ++ flat_map put_base128 r) with (flat_map put_base128 (a * 40 + b :: r)).
  unfold parse_oid_value.
  assert (A : forallb arc_ok (a * 40 + b :: r) = true).
  { cbn [forallb]. rewrite Hr. unfold arc_ok. lia. }
  rewrite (oid_rest_back _ _ A (le_n _)).
  destruct (flat_map put_base128 (a * 40 + b :: r)) eqn:X.
  - cbn [flat_map] in X. apply app_eq_nil in X. destruct X as [X _].
    pose proof (put_base128_ne (a * 40 + b) ltac:(lia)) as Y. rewrite X in Y. cbn [length] in Y. lia.
  - destruct (a * 40 + b <? 80) eqn:Y; f_equal.
    + f_equal; [lia|]. f_equal. lia.
    + f_equal; [lia|]. f_equal. lia.
Qed.

(** ** Bit strings *)
Definition bits_fit (b : bitstring) : Prop :=
  0 <= bs_len b /\ Z.of_nat (length (bs_bytes b)) = (bs_len b + 7) / 8 /\
  Z.land (last (bs_bytes b) 0) (2 ^ ((8 - bs_len b mod 8) mod 8) - 1) = 0.
Lemma bits_back : forall b, bits_fit b -> parse_bitstring (put_bits b) = Some b.
Proof.
  intros [bs n] (H0 & Hl & Hz). cbn [bs_bytes bs_len] in *. unfold put_bits, parse_bitstring. cbn [bs_bytes bs_len].
  set (p := (8 - n mod 8) mod 8) in *.
  assert (P : 0 <= p < 8) by (subst p; lia).
  destruct (7 <? p) eqn:E; [lia|]. cbn [orb].
  destruct bs as [|x bs].
  - cbn [length] in Hl. assert (n = 0) by lia. subst n. subst p. reflexivity.
  - cbn [orb]. change (last (p :: x :: bs) 0) with (last (x :: bs) 0). rewrite Hz. cbn [negb Z.eqb].
    do 2 f_equal. subst p. lia.
Qed.

(** ** Strings *)
Lemma printable_mono : forall l, forallb (is_printable false false) l = true ->
  forallb (is_printable true true) l = true.
Proof.
  intros l H. rewrite forallb_forall in *. intros x Hx. specialize (H x Hx).
  unfold is_printable in *. cbn [andb] in *. rewrite !orb_false_r in H. rewrite H. reflexivity.
Qed.
Lemma printable_ascii : forall l, forallb (is_printable true true) l = true ->
  forallb (fun b => b <? 128) l = true.
Proof.
  intros l H. rewrite forallb_forall in *. intros x Hx. specialize (H x Hx). unfold is_printable in H. lia.
Qed.

(** ** Times *)
Definition date_fits (t : gotime) : Prop :=
  0 <= tm_year t <= 9999 /\ 1 <= tm_month t <= 12 /\ 1 <= tm_day t <= days_in (tm_month t) (tm_year t) /\
  0 <= tm_hour t < 24 /\ 0 <= tm_min t < 60 /\ 0 <= tm_sec t < 60 /\ Z.abs (tm_off t) < 1500.

Lemma days_in_bound : forall m y, 28 <= days_in m y <= 31.
Proof. intros. unfold days_in. destruct (m =? 2), (leap y); try lia; destruct (_ || _); lia. Qed.

Lemma digit_put : forall v, digit (48 + v mod 10) = true.
Proof. intros. unfold digit. lia. Qed.
Lemma num2_back : forall v r, 0 <= v < 100 -> read_num 2 0 (two_digits v ++ r) = Some (v, r).
Proof.
  intros v r H. unfold two_digits. cbn [app read_num]. rewrite !digit_put. f_equal. f_equal. lia.
Qed.
Lemma num4_back : forall v r, 0 <= v < 10000 -> read_num 4 0 (four_digits v ++ r) = Some (v, r).
Proof.
  intros v r H. unfold four_digits. cbn [app read_num]. rewrite !digit_put. f_equal. f_equal. lia.
Qed.

Definition put_zone (o : Z) : bytes :=
  if o =? 0 then [90]
  else (if 0 <? o then 43 else 45) :: two_digits (Z.abs o / 60) ++ two_digits (Z.abs o mod 60).
Lemma zone_back : forall o, Z.abs o < 1500 -> read_zone (put_zone o) = Some o.
Proof.
  intros o H. unfold put_zone. destruct (o =? 0) eqn:E.
  - apply Z.eqb_eq in E. now subst o.
  - unfold read_zone.
    set (s := if 0 <? o then 43 else 45). set (w := two_digits (Z.abs o / 60) ++ two_digits (Z.abs o mod 60)).
    assert (Hs : s = 43 \/ s = 45) by (subst s; destruct (0 <? o); auto).
    assert (R : read_num 2 0 w = Some (Z.abs o / 60, two_digits (Z.abs o mod 60))) by (apply num2_back; lia).
    assert (R2 : read_num 2 0 (two_digits (Z.abs o mod 60)) = Some (Z.abs o mod 60, [])).
    { rewrite <- (app_nil_r (two_digits _)). apply num2_back. lia. }
    replace ((s =? 43) || (s =? 45)) with true by lia. rewrite R, R2.
    destruct ((Z.abs o / 60 <=? 24) && (Z.abs o mod 60 <=? 59) && (0 <? Z.abs o / 60 * 60 + Z.abs o mod 60)) eqn:B; [|lia].
    subst s. destruct (0 <? o) eqn:P.
    + change (43 =? 43) with true. cbn [Z.eqb]. f_equal. lia.
    + f_equal. change (45 =? 43) with false. cbv iota. lia.
Qed.

Lemma put_common_zone : forall t, put_common t =
  two_digits (tm_month t) ++ two_digits (tm_day t) ++ two_digits (tm_hour t)
  ++ two_digits (tm_min t) ++ two_digits (tm_sec t) ++ put_zone (tm_off t).
Proof. reflexivity. Qed.

Lemma date_back : forall t, date_fits t -> read_date true (tm_year t) (put_common t) = Some t.
Proof.
  intros [y m d hh mm ss o] (Hy & Hm & Hd & Hh & Hn & Hs & Ho). rewrite put_common_zone.
  cbn [tm_year tm_month tm_day tm_hour tm_min tm_sec tm_off] in *.
  pose proof (days_in_bound m y) as D. unfold read_date.
  rewrite num2_back by lia. cbn [bindo]. rewrite num2_back by lia. cbn [bindo]. rewrite num2_back by lia. cbn [bindo].
  rewrite num2_back by lia. cbn [bindo]. rewrite num2_back by lia. cbn [bindo]. rewrite zone_back by lia. cbn [bindo].
  assert (X : date_ok y m d hh mm ss = true) by (unfold date_ok; lia). now rewrite X.
Qed.

Lemma zone_not_digits : forall v r, read_zone (two_digits v ++ r) = None.
Proof.
  intros v r. unfold two_digits. cbn [app]. set (x := 48 + v / 10 mod 10). set (z := 48 + v mod 10).
  assert (X : 48 <= x <= 57) by (subst x; lia). clearbody x z. unfold read_zone.
  assert (E : (x =? 43) || (x =? 45) = false) by lia. rewrite E.
  destruct x as [|x|x]; try lia. destruct (Pos.eq_dec x 90) as [->|_]; [lia|].
  repeat (destruct x as [x|x|]; try reflexivity).
Qed.

Lemma date_no_secs : forall t, date_fits t -> read_date false (tm_year t) (put_common t) = None.
Proof.
  intros [y m d hh mm ss o] (Hy & Hm & Hd & Hh & Hn & Hs & Ho). rewrite put_common_zone.
  cbn [tm_year tm_month tm_day tm_hour tm_min tm_sec tm_off] in *.
  pose proof (days_in_bound m y) as D. unfold read_date.
  rewrite num2_back by lia. cbn [bindo]. rewrite num2_back by lia. cbn [bindo]. rewrite num2_back by lia. cbn [bindo].
  rewrite num2_back by lia. cbn [bindo]. now rewrite zone_not_digits.
Qed.

Lemma generalized_back : forall t, date_fits t ->
  exists b, put_generalized t = Some b /\ parse_generalized b = Some t.
Proof.
  intros t H. pose proof H as (Hy & _). unfold put_generalized.
  destruct ((tm_year t <? 0) || (9999 <? tm_year t)) eqn:E; [lia|]. eexists. split; [reflexivity|].
  unfold parse_generalized. rewrite num4_back by lia. cbn [bindo]. now apply date_back.
Qed.

Lemma utc_back : forall t, date_fits t -> 1950 <= tm_year t < 2050 ->
  exists b, put_utc t = Some b /\ parse_utc b = Some t.
Proof.
  intros t H Hy. unfold put_utc.
  destruct ((1950 <=? tm_year t) && (tm_year t <? 2000)) eqn:E.
  - eexists. split; [reflexivity|]. unfold parse_utc. rewrite num2_back by lia. cbn [bindo].
    destruct (tm_year t - 1900 <? 50) eqn:F; [lia|].
    replace (1900 + (tm_year t - 1900)) with (tm_year t) by lia. now rewrite date_no_secs, date_back.
  - destruct ((2000 <=? tm_year t) && (tm_year t <? 2050)) eqn:F; [|lia].
    eexists. split; [reflexivity|]. unfold parse_utc. rewrite num2_back by lia. cbn [bindo].
    destruct (tm_year t - 2000 <? 50) eqn:G; [|lia].
    replace (2000 + (tm_year t - 2000)) with (tm_year t) by lia. now rewrite date_no_secs, date_back.
Qed.
