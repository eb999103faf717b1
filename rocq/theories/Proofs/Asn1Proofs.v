(** Reading DER values, and that only DER values are read. *)
From Coq Require Import Lia ZifyBool ZifyNat.
From Verif.Model Require Import Base Asn1.
From Verif.Spec Require Import Addr BerSpec.
From Verif.Proofs Require Import NetIPProofs BerProofs.
Ltac Zify.zify_post_hook ::= Z.div_mod_to_equations.

(** ** Lengths *)
Lemma long_length_read : forall ds acc r, bytes_ok ds = true -> 0 <= acc ->
  acc * 256 ^ Z.of_nat (length ds) + bval ds < 2 ^ 31 ->
  (acc = 0 -> ds <> [] -> hd 0 ds <> 0) ->
  long_length (length ds) acc (ds ++ r) = Some (acc * 256 ^ Z.of_nat (length ds) + bval ds, r).
Proof.
  induction ds as [|b ds IH]; intros acc r O Ha HB Hz.
  - cbn [length long_length app bval]. f_equal. f_equal. cbn. lia.
  - apply bytes_ok_cons in O as [Hb O]. cbn [length bval] in *. rewrite pow256_S in *.
    pose proof (pow256_pos (length ds)) as P. pose proof (bval_bound ds O) as B.
    cbn [long_length app].
    assert (HA : acc * 256 + b < 2 ^ 31) by nia.
    destruct (2 ^ 23 <=? acc) eqn:E; [lia|].
    destruct (acc * 256 + b =? 0) eqn:E0.
    { exfalso. assert (acc = 0) by lia. specialize (Hz H ltac:(congruence)). cbn in Hz. lia. }
    rewrite IH.
    + f_equal. f_equal. nia.
    + exact O.
    + lia.
    + nia.
    + intros X. lia.
Qed.

Lemma parse_length_read : forall n l r, der_len n l -> n < 2 ^ 31 -> parse_length (l ++ r) = Some (n, r).
Proof.
  intros n l r [H Hs] Hn. destruct H as [n H|k ds n Hk Hr O Hh Hv].
  - cbn [app parse_length]. destruct (n <? 128) eqn:E; [reflexivity|lia].
  - rewrite addr_val_bval in Hv. cbn [app parse_length].
    destruct (128 + Z.of_nat k <? 128) eqn:E; [lia|].
    destruct (128 + Z.of_nat k =? 128) eqn:E2; [lia|].
    replace (Z.to_nat (128 + Z.of_nat k - 128)) with (length ds) by lia.
    rewrite long_length_read; auto; try lia.
    rewrite Z.mul_0_l, Z.add_0_l, Hv. destruct (n <? 128) eqn:E3; [|reflexivity].
    exfalso. cbn [length] in Hs. assert (n < 128) as K by lia. apply Hs in K. destruct ds; cbn in *; [lia|discriminate].
Qed.

Lemma long_length_inv : forall n acc l v r, bytes_ok l = true -> 1 <= acc ->
  long_length n acc l = Some (v, r) ->
  exists ds, l = ds ++ r /\ length ds = n /\ v = acc * 256 ^ Z.of_nat n + bval ds /\
             (n <> O -> v < 2 ^ 31).
Proof.
  induction n as [|n IH]; intros acc l v r O Ha H; cbn [long_length] in H.
  - injection H as <- <-. exists []. split; [reflexivity|]. split; [reflexivity|].
    change (256 ^ Z.of_nat 0) with 1. cbn [bval]. split; [lia|congruence].
  - destruct l as [|b l]; [discriminate|]. apply bytes_ok_cons in O as [Hb O].
    destruct (2 ^ 23 <=? acc) eqn:E; [discriminate|].
    destruct (acc * 256 + b =? 0) eqn:E0; [discriminate|].
    destruct (IH (acc * 256 + b) _ _ _ O ltac:(lia) H) as (ds & -> & L & V & Bd).
    exists (b :: ds). split; [reflexivity|]. split; [cbn; lia|]. cbn [bval]. rewrite L, pow256_S. split; [nia|].
    intros _. destruct n as [|n]; [|apply Bd; congruence].
    destruct ds; [|discriminate]. cbn in V. lia.
Qed.

Lemma parse_length_inv : forall l n r, bytes_ok l = true -> parse_length l = Some (n, r) ->
  exists lo, l = lo ++ r /\ der_len n lo /\ 0 <= n < 2 ^ 31.
Proof.
  intros [|b l] n r O H; [discriminate|]. cbn [parse_length] in H.
  apply bytes_ok_cons in O as [Hb O].
  destruct (b <? 128) eqn:E.
  - injection H as <- <-. exists [b]. split; [reflexivity|]. split; [|lia]. split; [constructor; lia|cbn; lia].
  - destruct (b =? 128) eqn:E2; [discriminate|].
    destruct (long_length (Z.to_nat (b - 128)) 0 l) as [[v r']|] eqn:EL; [|discriminate].
    destruct (v <? 128) eqn:E3; [discriminate|]. injection H as <- <-.
    destruct (Z.to_nat (b - 128)) as [|k] eqn:Ek; [lia|]. cbn [long_length] in EL.
    destruct l as [|c l]; [discriminate|]. apply bytes_ok_cons in O as [Hc O].
    destruct (2 ^ 23 <=? 0) eqn:E4; [lia|]. destruct (0 * 256 + c =? 0) eqn:E5; [discriminate|].
    destruct (long_length_inv _ (0 * 256 + c) _ _ _ O ltac:(lia) EL) as (ds & -> & L & V & Bd).
    apply bytes_ok_app in O as [Od _]. pose proof (bval_bound ds Od) as Bv.
    assert (V31 : v < 2 ^ 31).
    { destruct k; [|apply Bd; congruence]. destruct ds; [|discriminate]. cbn in V. lia. }
    assert (K3 : (k <= 3)%nat).
    { destruct (le_lt_dec k 3) as [X|X]; [exact X|]. exfalso.
      pose proof (pow256_le 4 k ltac:(lia)). change (256 ^ Z.of_nat 4) with (2 ^ 32) in *. nia. }
    exists (b :: c :: ds). split; [reflexivity|]. split; [|lia].
    split; [|cbn; lia].
    replace b with (128 + Z.of_nat (S k)) by lia. apply len_long.
    + cbn. lia.
    + lia.
    + apply bytes_ok_cons. auto.
    + cbn. lia.
    + rewrite addr_val_bval. cbn [bval]. rewrite L. lia.
Qed.

(** ** Values *)
Lemma parse_raw_read : forall b l c rest, b mod 32 <> 31 ->
  der_len (Z.of_nat (length c)) l -> Z.of_nat (length c) < 2 ^ 31 ->
  parse_raw (b :: l ++ c ++ rest) =
  Some (mkRaw (b / 64) (negb (b / 32 mod 2 =? 0)) (b mod 32) c (b :: l ++ c), rest).
Proof.
  intros b l c rest Hb Hl Hc. unfold parse_raw.
  destruct (b mod 32 =? 31) eqn:E; [lia|].
  rewrite (parse_length_read _ l (c ++ rest) Hl Hc).
  rewrite app_length. destruct (Z.of_nat (length c + length rest) <? Z.of_nat (length c)) eqn:E2; [lia|].
  rewrite Nat2Z.id. rewrite firstn_app, Nat.sub_diag, firstn_O, app_nil_r, firstn_all.
  rewrite skipn_app, Nat.sub_diag, skipn_all. cbn [skipn app].
  f_equal. f_equal. f_equal.
  replace (b :: l ++ c ++ rest) with ((b :: l ++ c) ++ rest) by (cbn [app]; now rewrite <- app_assoc).
  rewrite app_length. replace (length (b :: l ++ c) + length rest - length rest)%nat with (length (b :: l ++ c)) by lia.
  now rewrite firstn_app, Nat.sub_diag, firstn_O, app_nil_r, firstn_all.
Qed.

Lemma base128_rest : forall k f acc l v r, base128 k f acc l = Some (v, r) -> exists t, l = t ++ r /\ t <> [].
Proof.
  induction k as [|k IH]; intros f acc l v r H; [discriminate|]. destruct l as [|b l]; [discriminate|].
  cbn [base128] in H. destruct (f && (b =? 128)); [discriminate|].
  destruct (b <? 128).
  - destruct (_ <? 2 ^ 31); [|discriminate]. injection H as _ <-. exists [b]. split; [reflexivity|discriminate].
  - destruct (IH _ _ _ _ _ H) as (t & -> & _). exists (b :: t). split; [reflexivity|discriminate].
Qed.

Lemma parse_raw_inv : forall d r rest, bytes_ok d = true -> parse_raw d = Some (r, rest) ->
  exists tg lo, d = tg ++ lo ++ r_bytes r ++ rest /\ r_full r = tg ++ lo ++ r_bytes r /\
    der_len (Z.of_nat (length (r_bytes r))) lo /\ Z.of_nat (length (r_bytes r)) < 2 ^ 31 /\
    tg <> [] /\ r_class r = hd 0 tg / 64 /\ r_cons r = negb (hd 0 tg / 32 mod 2 =? 0) /\
    (hd 0 tg mod 32 <> 31 -> tg = [hd 0 tg] /\ r_tag r = hd 0 tg mod 32) /\
    (hd 0 tg mod 32 = 31 -> 31 <= r_tag r).
Proof.
  intros [|b l] r rest O H; [discriminate|]. unfold parse_raw in H.
  pose proof O as O0. apply bytes_ok_cons in O as [Hb O].
  assert (G : exists tag r1 tg, (if b mod 32 =? 31
       then match base128 5 true 0 l with
            | Some (t, r') => if t <? 31 then None else Some (t, r')
            | None => None end else Some (b mod 32, l)) = Some (tag, r1) /\
      b :: l = (b :: tg) ++ r1 /\ (b mod 32 <> 31 -> tg = [] /\ tag = b mod 32) /\ (b mod 32 = 31 -> 31 <= tag)).
  { destruct (b mod 32 =? 31) eqn:E.
    - destruct (base128 5 true 0 l) as [[t r']|] eqn:EB; [|discriminate].
      destruct (t <? 31) eqn:Et; [discriminate|]. destruct (base128_rest _ _ _ _ _ _ EB) as (tg & -> & _).
      exists t, r', tg. split; [reflexivity|]. split; [reflexivity|]. split; intros; lia.
    - exists (b mod 32), l, []. split; [reflexivity|]. split; [reflexivity|]. split; intros; [auto|lia]. }
  destruct G as (tag & r1 & tg & E & El & T1 & T2). rewrite E in H.
  destruct (parse_length r1) as [[n r2]|] eqn:EL; [|discriminate].
  assert (O1 : bytes_ok r1 = true) by (rewrite El in O0; now apply bytes_ok_app in O0).
  destruct (parse_length_inv _ _ _ O1 EL) as (lo & -> & Hd & Hn).
  destruct (Z.of_nat (length r2) <? n) eqn:E2; [discriminate|]. injection H as <- <-. cbn [r_bytes r_class r_cons r_tag r_full].
  set (c := firstn (Z.to_nat n) r2). set (rs := skipn (Z.to_nat n) r2).
  assert (Ec : r2 = c ++ rs) by (symmetry; apply firstn_skipn).
  assert (Lc : length c = Z.to_nat n) by (unfold c; rewrite firstn_length; lia).
  exists (b :: tg), lo. rewrite Lc, Z2Nat.id by lia.
  assert (Ed : b :: l = (b :: tg) ++ lo ++ c ++ rs) by (rewrite El; now rewrite Ec at 1).
  split; [exact Ed|].
  split.
  { change (match rs with [] => S (length l) | _ :: _ => (S (length l) - length rs)%nat end) with (S (length l) - length rs)%nat || idtac.
    transitivity (firstn (length (b :: l) - length rs) (b :: l)); [reflexivity|].
    rewrite Ed. rewrite !app_assoc. rewrite app_length.
    replace (length (((b :: tg) ++ lo) ++ c) + length rs - length rs)%nat with (length (((b :: tg) ++ lo) ++ c)) by lia.
    now rewrite firstn_app, Nat.sub_diag, firstn_O, app_nil_r, firstn_all. }
  split; [exact Hd|]. split; [lia|]. split; [discriminate|]. cbn [hd].
  split; [reflexivity|]. split; [reflexivity|]. split; [|exact T2].
  intros X. apply T1 in X. destruct X as [-> ->]. auto.
Qed.

(** OCTET STRINGs *)
Lemma parse_octets_read : forall l c rest,
  der_len (Z.of_nat (length c)) l -> Z.of_nat (length c) < 2 ^ 31 ->
  parse_octets (4 :: l ++ c ++ rest) = Some (c, rest).
Proof.
  intros l c rest Hl Hc. unfold parse_octets. rewrite parse_raw_read by (auto; discriminate). reflexivity.
Qed.

Lemma parse_octets_inv : forall d c rest, bytes_ok d = true -> parse_octets d = Some (c, rest) ->
  exists lo, d = 4 :: lo ++ c ++ rest /\ der_len (Z.of_nat (length c)) lo /\ Z.of_nat (length c) < 2 ^ 31.
Proof.
  intros d c rest O H. unfold parse_octets in H.
  destruct (parse_raw d) as [[r rs]|] eqn:E; [|discriminate].
  destruct ((r_class r =? 0) && negb (r_cons r) && (r_tag r =? 4)) eqn:T; [|discriminate]. injection H as <- <-.
  destruct (parse_raw_inv _ _ _ O E) as (tg & lo & Ed & _ & Hl & Hc & Ht & C1 & C2 & C3 & C4).
  apply andb_true_iff in T as [T T3]. apply andb_true_iff in T as [T1 T2].
  destruct tg as [|b tg]; [congruence|]. cbn [hd] in *.
  assert (Ob : 0 <= b < 256) by (rewrite Ed in O; cbn [app] in O; apply bytes_ok_cons in O; tauto).
  destruct (Z.eq_dec (b mod 32) 31) as [X|X]; [apply C4 in X; lia|].
  apply C3 in X. destruct X as [X Y]. injection X as ->. exists lo. split; [|auto].
  rewrite Ed. cbn [app]. f_equal. rewrite C2 in T2. lia.
Qed.
